(** * PossMain: [cal_possibility] on a position. *)
From Verif Require Import Base Spec BaseFacts LayMine Matrix Solve Utils UtilsProofs SolverSpec LinFacts SolveProofs ChunkProofs MatrixProofs CombineProofs TableProofs EnumProofs EnumBlock EnumSolve PosProofs MatrixMeaning
  Possibility PossSpec PossProofs PossSums PossCode.
Open Scope nat_scope.

(** ** when [ways] is zero *)
Lemma ways_zero I rows bs : forall phi, Forall2 (fun r b => forall kf, In kf r -> fst b <= fst kf <= snd b) rows bs ->
  (forall phi psi, (forall t, phi t = psi t) -> I phi = I psi) ->
  (forall t, nsum (map fst bs) <= t <= nsum (map snd bs) -> I (fun u => phi (t + u)) = 0) -> ways I rows phi = 0.
Proof.
  intros phi F HI H. rewrite (@ways_inner I (fun _ => 0) rows bs phi F); auto.
  clear. revert phi. induction rows as [|r rows IH]; intros phi; auto. cbn [ways]. apply sumn_zero. intros kf _. rewrite IH. lia.
Qed.
Lemma sumn_pos {A} (f : A -> nat) l a : In a l -> f a <> 0 -> sumn f l <> 0.
Proof. induction l as [|b l IH]; intros Hi Hf; [destruct Hi|]. cbn [sumn]. destruct Hi as [->|Hi]; [lia|]. specialize (IH Hi Hf). lia. Qed.
Lemma ways_pos I rows ks : forall phi, Forall2 (fun r k => exists f, In (k, f) r /\ f <> 0) rows ks ->
  (forall phi psi, (forall t, phi t = psi t) -> I phi = I psi) ->
  I (fun u => phi (nsum ks + u)) <> 0 -> ways I rows phi <> 0.
Proof.
  intros phi F HI. revert phi. induction F as [|r k rows ks (f & Hin & Hf) F IH]; intros phi H; cbn [ways].
  - rewrite (HI phi (fun u => phi (nsum [] + u))); auto.
  - apply (@sumn_pos _ _ _ (k, f) Hin). cbn [fst snd]. apply Nat.neq_mul_0. split; auto. apply IH.
    rewrite (HI _ (fun u => phi (nsum (k :: ks) + u))); auto. intros t. f_equal. rewrite !nsum_sumn. cbn [sumn]. lia.
Qed.

Lemma windowed_window l w : Forall2 windowed l w -> Forall2 window l w.
Proof. induction 1 as [|B x l w (_ & H & _) F IH]; constructor; auto. Qed.

Section Pos.
Variables (row column : nat) (g : board).
Hypothesis Hsat : satisfiable row column g.
Hypothesis Hprop : proper row column g.
Hypothesis Hsmall : small_blocks g.
Let flags := flag_count row column g.

Record situation (bl : list block) (W : list (nat * nat)) : Prop := {
  st_refresh : refresh_matrixs g = Ok (bl, length (inner_cells row column g), flags);
  st_good : Forall good_block bl;
  st_nd : NoDup (concat (map vars bl));
  st_front : forall q, In q (concat (map vars bl)) <-> front_cell row column g q;
  st_sats : forall v, sats v bl <-> consistent row column g (fun p => flaggedb g p || coveredb g p && v p);
  st_W : Forall2 windowed bl W;
  st_small : Forall (fun B => length (vars B) <= ENUM_LIMIT) bl;
  st_pieces : (let* sq := mapM (fun B => let* (A, x, groups) := combine_cells (map fst (eqs B)) (vars B) in Ok (B, A, x, groups)) bl in
     mapM (fun '(B, A, x, groups) =>
                let* t := cal_table_minenum_recursion A x (map snd (eqs B)) groups in Ok (Piece B groups t)) sq) = Ok (map pieceB (combine bl W)) }.
Lemma situation_ok : exists bl W, situation bl W.
Proof.
  destruct Hsat as (Hr & H0 & m0 & Hm0). destruct (refresh_blocks Hr H0) as (bl & k1 & k2 & E & Hg & _ & Nd & Hf & Hn).
  destruct (refresh_matrixs_meaning Hr H0) as (bl2 & a1 & a2 & E2 & _ & _ & Hs). rewrite E2 in E. injection E as -> -> ->.
  destruct (refresh_matrixs_partition Hr H0) as (bl3 & c1 & c2 & numss & E3 & _ & _ & _ & _ & _ & Ek1 & Ek2). rewrite E3 in E2. injection E2 as -> -> ->.
  assert (Hl : Forall (fun B => length (vars B) <= ENUM_LIMIT) bl) by exact (Hsmall E3).
  assert (Hv : sats m0 bl) by (apply Hn; apply consistent_front; exact Hm0).
  destruct (pieces_ok Hg Hv Hl) as (W & HW & EP).
  exists bl, W. constructor; auto.
  - rewrite E3, Ek1, Ek2. reflexivity.
  - intros v. apply (Hs v m0 Hm0).
Qed.

Variables (bl : list block) (W : list (nat * nat)).
Hypothesis St : situation bl W.
Let U := length (inner_cells row column g).
Let mn := nsum (map fst W).
Let mx := nsum (map top W).
Lemma win : Forall2 window bl W.
Proof. clear - St. destruct St. clear - st_W0. induction st_W0 as [|B w bl W (_ & H & _) F IH]; constructor; auto. Qed.
Lemma worlds_ok M : flags <= M -> n_worlds row column g M = ways (full U (fun _ => 1)) (rowsB bl W) (exactly (M - flags)).
Proof. intros HM. pose proof win as Hw. destruct St. apply n_worlds_ways; auto. Qed.
Lemma worlds_none M : M < flags -> n_worlds row column g M = 0.
Proof.
  intros H. unfold n_worlds. rewrite count_b1. apply sumn_zero. intros s _. unfold worldb. fold flags. destruct (Nat.eqb_spec (flags + length s) M); [lia|]. now rewrite andb_false_r.
Qed.
Lemma least_ok : least_mines row column g (flags + mn).
Proof.
  destruct St. split.
  - rewrite worlds_ok by lia. replace (flags + mn - flags) with mn by lia. apply (@ways_pos _ _ (map fst W)).
    + unfold rowsB. clear - st_W0. induction st_W0 as [|B w bl W (Hc & _ & H1 & _) F IH]; cbn [combine map]; constructor; auto.
      exists (n_sol B (fst w)). split; auto. unfold rowf. apply in_map_iff. exists (fst w). split; auto. apply in_seq. lia.
    + intros; now apply full_ext.
    + fold mn. unfold full. apply sumn_pos with (a := 0); [apply in_seq; lia|]. rewrite binom_0. unfold exactly. rewrite Nat.add_0_r, Nat.eqb_refl. cbn. lia.
  - intros M HM. destruct (Nat.lt_ge_cases M flags); [now apply worlds_none|]. rewrite worlds_ok by auto.
    apply (@ways_zero _ _ (bounds W)); [now apply rows_within|intros; now apply full_ext|].
    intros t Ht. unfold bounds in Ht. rewrite !map_map in Ht. cbn [fst snd] in Ht. change (map (fun x : nat * nat => fst x) W) with (map fst W) in Ht. fold mn in Ht.
    unfold full. apply sumn_zero. intros k _. unfold exactly. destruct (Nat.eqb_spec (t + k) (M - flags)); [lia|]. cbn [b1]. lia.
Qed.
Lemma binom_pos n : forall k, k <= n -> binom n k <> 0.
Proof. induction n as [|n IH]; intros [|k] Hk; cbn [binom]; try lia. specialize (IH k ltac:(lia)). lia. Qed.
Lemma most_ok : most_mines row column g (flags + mx + U).
Proof.
  destruct St. split.
  - rewrite worlds_ok by lia. replace (flags + mx + U - flags) with (mx + U) by lia. apply (@ways_pos _ _ (map top W)).
    + unfold rowsB. clear - st_W0. induction st_W0 as [|B w bl W (Hc & _ & _ & H1) F IH]; cbn [combine map]; constructor; auto.
      exists (n_sol B (top w)). split; auto. unfold rowf. apply in_map_iff. exists (top w). split; auto. apply in_seq. unfold top. lia.
    + intros; now apply full_ext.
    + fold mx. unfold full. apply sumn_pos with (a := U); [apply in_seq; lia|]. unfold exactly. rewrite Nat.eqb_refl. cbn [b1]. pose proof (@binom_pos U U (le_n _)). lia.
  - intros M HM. rewrite worlds_ok by lia.
    apply (@ways_zero _ _ (bounds W)); [now apply rows_within|intros; now apply full_ext|].
    intros t Ht. unfold bounds in Ht. rewrite !map_map in Ht. cbn [fst snd] in Ht. change (map (fun x : nat * nat => top x) W) with (map top W) in Ht. fold mx in Ht.
    unfold full. apply sumn_zero. intros k Hk. apply in_seq in Hk. unfold exactly. destruct (Nat.eqb_spec (t + k) (M - flags)); [lia|]. cbn [b1]. lia.
Qed.

Definition biggest : nat := fold_left Nat.max (rev (map (fun B => length (vars B)) bl)) 0.
Lemma cal_unfold minenum : cal_possibility g minenum =
  let* m := (match minenum with
             | Ratio k => let* d := usub k flags in Ok (Nat.min (Nat.max d mn) (mx + U))
             | Count m => if m <? flags then Err 17 else Ok (m - flags)
             end) in
  if Nat.min mx m <? mn then Err 3
  else let* (p, pu) := posterior (map pieceB (combine bl W)) U m mn (Nat.min mx m) in
       Ok (p, pu, (mn + flags, m + flags, Nat.min mx m + flags + U), biggest).
Proof.
  destruct St. unfold cal_possibility. rewrite st_refresh0. cbn [bind]. fold U.
  assert (E1 : filter (fun B => ENUM_LIMIT <? length (vars B)) bl = []).
  { clear - st_small0. induction st_small0 as [|B bl H F IH]; auto. cbn [filter]. destruct (Nat.ltb_spec ENUM_LIMIT (length (vars B))); [lia|auto]. }
  assert (E2 : filter (fun B => negb (ENUM_LIMIT <? length (vars B))) bl = bl).
  { clear - st_small0. induction st_small0 as [|B bl H F IH]; auto. cbn [filter]. destruct (Nat.ltb_spec ENUM_LIMIT (length (vars B))); [lia|]. cbn [negb]. now rewrite IH. }
  rewrite E1, E2. cbn [map nsum fold_left]. unfold nsum at 1 2 3. cbn [fold_left]. rewrite Nat.add_0_r.
  revert st_pieces0.
  destruct (mapM (fun B => let* (A, x, groups) := combine_cells (map fst (eqs B)) (vars B) in Ok (B, A, x, groups)) bl) as [sq| | |] eqn:Es; cbn [bind]; intros EP; try discriminate EP.
  rewrite EP. cbn [bind]. destruct (mins_ok st_W0) as [M1 M2]. rewrite M1, M2. cbn [bind]. reflexivity.
Qed.
Definition all_entries (m : nat) : list (pos * frac) := entries bl W U m.
Lemma cal_ok minenum m : (match minenum with
             | Ratio k => let* d := usub k flags in Ok (Nat.min (Nat.max d mn) (mx + U))
             | Count m => if m <? flags then Err 17 else Ok (m - flags)
             end) = Ok m ->
  cal_possibility g minenum = if m <? mn then Err 3 else
    Ok (all_entries m, (ways (full U (fun k => k)) (rowsB bl W) (exactly m), n_worlds row column g (flags + m) * U),
        (mn + flags, m + flags, Nat.min mx m + flags + U), biggest).
Proof.
  intros E. rewrite cal_unfold, E. cbn [bind].
  assert (Hmm : mn <= mx).
  { destruct St. unfold mn, mx. rewrite !nsum_sumn. clear - st_W0. induction st_W0 as [|B w bl W (Hc & _) F IH]; cbn [map sumn]; auto. unfold top at 1. lia. }
  destruct (Nat.ltb_spec m mn), (Nat.ltb_spec (Nat.min mx m) mn); try lia; auto.
  destruct St. pose proof (@posterior_ok bl W U m st_W0 st_good0) as P. cbv zeta in P. fold mn mx in P. rewrite P by auto. cbn [bind].
  unfold worlds_total. rewrite worlds_ok by lia. replace (flags + m - flags) with m by lia. reflexivity.
Qed.

Lemma block_cells_perm B : good_block B -> Permutation (block_cells B) (vars B).
Proof. intros [Hg _]. exact (concat_G B). Qed.
Lemma numer_ok m l1 B l2 q : bl = l1 ++ B :: l2 -> In q (vars B) -> numer bl W U m (length l1) q = n_worlds_at row column g (flags + m) q.
Proof.
  intros Eb Hq. destruct St. unfold numer.
  pose proof st_W0 as F. rewrite Eb in F. apply Forall2_app_inv_l in F as (w1 & w2' & F1 & F2 & Ew). inversion F2 as [|? w ? w2 FB F3]; subst w2'.
  pose proof (Forall2_len F1) as L1.
  pose proof (windowed_window F1) as Hw1. pose proof (windowed_window F3) as Hw2. destruct FB as (_ & HwB & _).
  rewrite (@n_worlds_at_block row column g bl Hprop st_nd0 st_front0 st_sats0 l1 B l2 w1 w w2 (flags + m) q); auto; [|fold flags; lia].
  fold flags. replace (flags + m - flags) with m by lia. fold U. f_equal.
  rewrite Ew, Eb, rowsB_app by auto.
  change (rowsB (B :: l2) (w :: w2)) with (rowf (n_sol B) w :: rowsB l2 w2).
  assert (Lr : length (rowsB l1 w1) = length l1) by (unfold rowsB; rewrite map_length, combine_length; lia).
  rewrite <- Lr. rewrite upd_snoc. rewrite Lr. rewrite app_nth2, Nat.sub_diag by lia. rewrite L1, app_nth2, Nat.sub_diag by lia. reflexivity.
Qed.
Lemma entries_value m q a b : In (q, (a, b)) (all_entries m) -> a = n_worlds_at row column g (flags + m) q /\ b = n_worlds row column g (flags + m).
Proof.
  intros H. unfold all_entries, entries in H. apply in_concat in H as (l & Hl & Hin). apply in_map_iff in Hl as (i & <- & Hi). apply in_seq in Hi.
  apply in_map_iff in Hin as (q' & Eq & Hq). injection Eq as -> <- <-.
  assert (Hib : i < length bl). { destruct St. pose proof (Forall2_len st_W0). rewrite !map_length, combine_length in Hi. lia. }
  destruct (@nth_split _ i bl (Blk [] []) Hib) as (l1 & l2 & Eb & L1).
  split.
  - rewrite <- L1 at 1. rewrite <- (@numer_ok m l1 (nth i bl (Blk [] [])) l2 q Eb); auto. eapply Permutation_in; [|exact Hq]. apply block_cells_perm.
    destruct St. rewrite Forall_forall in st_good0. apply st_good0. now apply nth_In.
  - unfold worlds_total. rewrite worlds_ok by lia. now replace (flags + m - flags) with m by lia.
Qed.
Lemma entries_cells m : Permutation (map fst (all_entries m)) (concat (map vars bl)).
Proof.
  unfold all_entries, entries. rewrite concat_map, map_map.
  rewrite (@map_ext _ _ _ (fun i => block_cells (nth i bl (Blk [] [])))).
  2:{ intros i. rewrite map_map. cbn [fst]. apply map_id. }
  destruct St. pose proof (Forall2_len st_W0) as LW. rewrite !map_length, combine_length, <- LW, Nat.min_id. clear - st_good0.
  rewrite <- (map_map (fun i => nth i bl (Blk [] [])) block_cells).
  assert (Es : map (fun i => nth i bl (Blk [] [])) (seq 0 (length bl)) = bl).
  { apply nth_ext with (d := Blk [] []) (d' := Blk [] []); [now rewrite map_length, seq_length|]. intros j Hj. rewrite map_length, seq_length in Hj.
    rewrite (@nth_map_lt _ _ _ _ j (Blk [] []) 0) by (now rewrite seq_length). now rewrite seq_nth. }
  rewrite Es. clear Es. induction st_good0 as [|B bl H F IH]; auto. cbn [map concat]. apply Permutation_app; auto. now apply block_cells_perm.
Qed.
Lemma inner_value m q : inner_cell row column g q -> ways (full U (fun k => k)) (rowsB bl W) (exactly m) = U * n_worlds_at row column g (flags + m) q.
Proof.
  intros Hq. pose proof win as Hw. destruct St. unfold U. rewrite (@n_worlds_at_inner row column g bl Hprop st_nd0 st_front0 st_sats0 W (flags + m) q); auto; [|fold flags; lia].
  fold flags. now replace (flags + m - flags) with m by lia.
Qed.
Lemma no_inner m : U = 0 -> ways (full U (fun k => k)) (rowsB bl W) (exactly m) = 0.
Proof.
  intros HU. destruct St. apply (@ways_zero _ _ (bounds W)); [now apply rows_within|intros; now apply full_ext|].
  intros t _. unfold full. rewrite HU. cbn. lia.
Qed.
End Pos.
