(** * BigBlocks: [cal_possibility] on positions with blocks beyond the enumeration limit. *)
From Verif Require Import Base Spec BaseFacts LayMine Matrix Solve Utils UtilsProofs SolverSpec LinFacts SolveProofs ChunkProofs MatrixProofs CombineProofs TableProofs EnumProofs EnumBlock EnumSolve PosProofs MatrixMeaning
  Possibility PossSpec PossProofs PossSums PossCode PossMain PropsPoss PossBoard.
From Verif Require PropsSolver.
Open Scope nat_scope.

(** The covered cell [q] belongs to a block of more than 55 cells. *)
Definition oversized (g : board) (q : pos) : Prop :=
  exists bl k1 k2 B, refresh_matrixs g = Ok (bl, k1, k2) /\ In B bl /\ 55 < length (vars B) /\ In q (vars B).
(** the number [n] touches such a cell *)
Definition hard_number (row column : nat) (g : board) (n : pos) : Prop :=
  inb row column n /\ number g n /\ exists q, inb row column q /\ near n q /\ oversized g q.
(** [h] is [g] without these numbers: the cells are open, but show the safe mark 12 instead. *)
Definition without_oversized (row column : nat) (g h : board) : Prop :=
  rect row column h /\ forall p, inb row column p ->
    (hard_number row column g p -> cell h p = 12%Z) /\ (~ hard_number row column g p -> cell h p = cell g p).

(** ** The counts of PossMain for a list of blocks that does not come from the code *)
Section Counts.
Variables (row column : nat) (g : board).
Hypothesis Hprop : proper row column g.
Let flags := flag_count row column g.
Record reduced (bl : list block) (W : list (nat * nat)) : Prop := {
  st_good : Forall good_block bl;
  st_nd : NoDup (concat (map vars bl));
  st_front : forall q, In q (concat (map vars bl)) <-> front_cell row column g q;
  st_sats : forall v, sats v bl <-> consistent row column g (fun p => flaggedb g p || coveredb g p && v p);
  st_W : Forall2 windowed bl W }.
Variables (bl : list block) (W : list (nat * nat)).
Hypothesis St : reduced bl W.
Let U := length (inner_cells row column g).
Let mn := nsum (map fst W).
Let mx := nsum (map top W).
Lemma winR : Forall2 window bl W.
Proof. clear - St. destruct St. clear - st_W0. induction st_W0 as [|B w bl W (_ & H & _) F IH]; constructor; auto. Qed.
Lemma worlds_ok_h M : flags <= M -> n_worlds row column g M = ways (full U (fun _ => 1)) (rowsB bl W) (exactly (M - flags)).
Proof. intros HM. pose proof winR as Hw. destruct St. apply n_worlds_ways; auto. Qed.
Lemma worlds_none_h M : M < flags -> n_worlds row column g M = 0.
Proof.
  intros H. unfold n_worlds. rewrite count_b1. apply sumn_zero. intros s _. unfold worldb. fold flags. destruct (Nat.eqb_spec (flags + length s) M); [lia|]. now rewrite andb_false_r.
Qed.
Lemma least_ok_h : least_mines row column g (flags + mn).
Proof.
  destruct St. split.
  - rewrite worlds_ok_h by lia. replace (flags + mn - flags) with mn by lia. apply (@ways_pos _ _ (map fst W)).
    + unfold rowsB. clear - st_W0. induction st_W0 as [|B w bl W (Hc & _ & H1 & _) F IH]; cbn [combine map]; constructor; auto.
      exists (n_sol B (fst w)). split; auto. unfold rowf. apply in_map_iff. exists (fst w). split; auto. apply in_seq. lia.
    + intros; now apply full_ext.
    + fold mn. unfold full. apply sumn_pos with (a := 0); [apply in_seq; lia|]. rewrite binom_0. unfold exactly. rewrite Nat.add_0_r, Nat.eqb_refl. cbn. lia.
  - intros M HM. destruct (Nat.lt_ge_cases M flags); [now apply worlds_none_h|]. rewrite worlds_ok_h by auto.
    apply (@ways_zero _ _ (bounds W)); [now apply rows_within|intros; now apply full_ext|].
    intros t Ht. unfold bounds in Ht. rewrite !map_map in Ht. cbn [fst snd] in Ht. change (map (fun x : nat * nat => fst x) W) with (map fst W) in Ht. fold mn in Ht.
    unfold full. apply sumn_zero. intros k _. unfold exactly. destruct (Nat.eqb_spec (t + k) (M - flags)); [lia|]. cbn [b1]. lia.
Qed.
Lemma most_ok_h : most_mines row column g (flags + mx + U).
Proof.
  destruct St. split.
  - rewrite worlds_ok_h by lia. replace (flags + mx + U - flags) with (mx + U) by lia. apply (@ways_pos _ _ (map top W)).
    + unfold rowsB. clear - st_W0. induction st_W0 as [|B w bl W (Hc & _ & _ & H1) F IH]; cbn [combine map]; constructor; auto.
      exists (n_sol B (top w)). split; auto. unfold rowf. apply in_map_iff. exists (top w). split; auto. apply in_seq. unfold top. lia.
    + intros; now apply full_ext.
    + fold mx. unfold full. apply sumn_pos with (a := U); [apply in_seq; lia|]. unfold exactly. rewrite Nat.eqb_refl. cbn [b1]. assert (binom U U <> 0) by (apply binom_pos; auto). lia.
  - intros M HM. rewrite worlds_ok_h by lia.
    apply (@ways_zero _ _ (bounds W)); [now apply rows_within|intros; now apply full_ext|].
    intros t Ht. unfold bounds in Ht. rewrite !map_map in Ht. cbn [fst snd] in Ht. change (map (fun x : nat * nat => top x) W) with (map top W) in Ht. fold mx in Ht.
    unfold full. apply sumn_zero. intros k Hk. apply in_seq in Hk. unfold exactly. destruct (Nat.eqb_spec (t + k) (M - flags)); [lia|]. cbn [b1]. lia.
Qed.

Lemma numer_ok_h m l1 B l2 q : bl = l1 ++ B :: l2 -> In q (vars B) -> numer bl W U m (length l1) q = n_worlds_at row column g (flags + m) q.
Proof.
  intros Eb Hq. destruct St. unfold numer.
  pose proof st_W0 as F. rewrite Eb in F. apply Forall2_app_inv_l in F as (w1 & w2' & F1 & F2 & Ew). inversion F2 as [|? w ? w2 FB F3]; subst w2'.
  pose proof (Forall2_len F1) as L1.
  pose proof (windowed_window F1) as Hw1. pose proof (windowed_window F3) as Hw2. destruct FB as (_ & HwB & _).
  rewrite (@n_worlds_at_block row column g bl Hprop st_nd0 st_front0 st_sats0 l1 B l2 w1 w w2 (flags + m) q); auto; [|fold flags; lia].
  fold flags. replace (flags + m - flags) with m by lia. fold U. f_equal.
  rewrite Ew, Eb, rowsB_app by auto.
  change (rowsB (B :: l2) (w :: w2)) with (rowf (n_sol B) w :: rowsB l2 w2).
  assert (Lr : length (rowsB l1 w1) = length l1) by (unfold rowsB; rewrite map_length, combine_length; lia).
  rewrite <- Lr. rewrite upd_snoc. rewrite Lr. rewrite app_nth2, Nat.sub_diag by lia. rewrite L1, app_nth2, Nat.sub_diag by lia. reflexivity.
Qed.
Lemma entries_value_h m q a b : In (q, (a, b)) (entries bl W U m) -> a = n_worlds_at row column g (flags + m) q /\ b = n_worlds row column g (flags + m).
Proof.
  intros H. unfold entries in H. apply in_concat in H as (l & Hl & Hin). apply in_map_iff in Hl as (i & <- & Hi). apply in_seq in Hi.
  apply in_map_iff in Hin as (q' & Eq & Hq). injection Eq as -> <- <-.
  assert (Hib : i < length bl). { destruct St. pose proof (Forall2_len st_W0). rewrite !map_length, combine_length in Hi. lia. }
  destruct (@nth_split _ i bl (Blk [] []) Hib) as (l1 & l2 & Eb & L1).
  split.
  - rewrite <- L1 at 1. rewrite <- (@numer_ok_h m l1 (nth i bl (Blk [] [])) l2 q Eb); auto. eapply Permutation_in; [|exact Hq]. apply block_cells_perm.
    destruct St. rewrite Forall_forall in st_good0. apply st_good0. now apply nth_In.
  - unfold worlds_total. rewrite worlds_ok_h by lia. now replace (flags + m - flags) with m by lia.
Qed.
Lemma entries_cells_h m : Permutation (map fst (entries bl W U m)) (concat (map vars bl)).
Proof.
  unfold entries. rewrite concat_map, map_map.
  rewrite (@map_ext _ _ _ (fun i => block_cells (nth i bl (Blk [] [])))).
  2:{ intros i. rewrite map_map. cbn [fst]. apply map_id. }
  destruct St. pose proof (Forall2_len st_W0) as LW. rewrite !map_length, combine_length, <- LW, Nat.min_id. clear - st_good0.
  rewrite <- (map_map (fun i => nth i bl (Blk [] [])) block_cells).
  assert (Es : map (fun i => nth i bl (Blk [] [])) (seq 0 (length bl)) = bl).
  { apply nth_ext with (d := Blk [] []) (d' := Blk [] []); [now rewrite map_length, seq_length|]. intros j Hj. rewrite map_length, seq_length in Hj.
    rewrite (@nth_map_lt _ _ _ _ j (Blk [] []) 0) by (now rewrite seq_length). now rewrite seq_nth. }
  rewrite Es. clear Es. induction st_good0 as [|B bl H F IH]; auto. cbn [map concat]. apply Permutation_app; auto. now apply block_cells_perm.
Qed.
Lemma inner_value_h m q : inner_cell row column g q -> ways (full U (fun k => k)) (rowsB bl W) (exactly m) = U * n_worlds_at row column g (flags + m) q.
Proof.
  intros Hq. pose proof winR as Hw. destruct St. unfold U. rewrite (@n_worlds_at_inner row column g bl Hprop st_nd0 st_front0 st_sats0 W (flags + m) q); auto; [|fold flags; lia].
  fold flags. now replace (flags + m - flags) with m by lia.
Qed.
Lemma no_inner_h m : U = 0 -> ways (full U (fun k => k)) (rowsB bl W) (exactly m) = 0.
Proof.
  intros HU. destruct St. apply (@ways_zero _ _ (bounds W)); [now apply rows_within|intros; now apply full_ext|].
  intros t _. unfold full. rewrite HU. cbn. lia.
Qed.
End Counts.

(** ** From [g] to [h] *)
Definition bigb (B : block) : bool := ENUM_LIMIT <? length (vars B).
Section Split.
Variables (row column : nat) (g h : board).
Hypothesis Hsat : satisfiable row column g.
Hypothesis Hprop : proper row column g.
Hypothesis Hh : without_oversized row column g h.
Let flags := flag_count row column g.

Lemma cell_dec p : inb row column p -> cell h p = cell g p \/ (number g p /\ cell h p = 12%Z).
Proof.
  intros Hp. destruct Hh as [_ H]. destruct (H p Hp) as [H1 H2].
  destruct (Z.eq_dec (cell h p) (cell g p)) as [|N]; auto. right.
  assert (K : ~ ~ hard_number row column g p) by (intros Hn; apply N, H2, Hn).
  split. - unfold number. destruct (Z_le_dec 0 (cell g p)), (Z_lt_dec (cell g p) 10); try lia; exfalso; apply K; intros (_ & X & _); unfold number in X; lia.
  - destruct (Z.eq_dec (cell h p) 12) as [|N2]; auto. exfalso. apply K. intros X. apply N2, H1, X.
Qed.
Lemma covered_same p : inb row column p -> coveredb h p = coveredb g p.
Proof. intros Hp. unfold coveredb. destruct (cell_dec Hp) as [->|[N ->]]; auto. unfold number in N. destruct (Z.eqb_spec (cell g p) 10); [lia|reflexivity]. Qed.
Lemma flagged_same p : inb row column p -> flaggedb h p = flaggedb g p.
Proof. intros Hp. unfold flaggedb. destruct (cell_dec Hp) as [->|[N ->]]; auto. unfold number in N. destruct (Z.eqb_spec (cell g p) 11); [lia|reflexivity]. Qed.
Lemma number_same p : inb row column p -> number h p -> cell h p = cell g p /\ number g p.
Proof. intros Hp Hn. destruct (cell_dec Hp) as [E|[_ E]]; unfold number in *; [split; [auto|now rewrite <- E]|lia]. Qed.
Lemma covered_list : covered_cells row column h = covered_cells row column g.
Proof. unfold covered_cells. apply filter_ext_in. intros p Hp. apply covered_same. now apply in_positions. Qed.
Lemma flags_same : flag_count row column h = flags.
Proof. unfold flags, flag_count. apply count_ext. intros p Hp. apply flagged_same. now apply in_positions. Qed.
Lemma adj_same (f f' : pos -> bool) p : (forall q, inb row column q -> f q = f' q) -> adj_count row column f p = adj_count row column f' p.
Proof. intros H. unfold adj_count. apply count_ext. intros q Hq. rewrite H; auto. now apply in_positions. Qed.
Lemma number_ok_same v n : cell h n = cell g n -> (number_ok row column h v n <-> number_ok row column g v n).
Proof.
  intros E. unfold number_ok. rewrite E. rewrite (@adj_same (flaggedb h) (flaggedb g)) by (intros; now apply flagged_same).
  rewrite (@adj_same (fun q => coveredb h q && v q) (fun q => coveredb g q && v q)) by (intros; now rewrite covered_same). reflexivity.
Qed.
Lemma consistent_h m : consistent row column g m -> consistent row column h m.
Proof.
  intros H p Hp. destruct (H p Hp) as (H1 & H2 & H3). destruct (cell_dec Hp) as [E|[N E]].
  - unfold number in *. rewrite E. auto.
  - rewrite E. split; [discriminate|]. split; [|unfold number; rewrite E; lia]. intros _ _. unfold number in N. apply H2; lia.
Qed.
Lemma satisfiable_h : satisfiable row column h.
Proof. destruct Hsat as (_ & H0 & m & Hm). split; [apply Hh|]. split; auto. exists m. now apply consistent_h. Qed.
Lemma proper_h : proper row column h.
Proof. intros p Hp. destruct (cell_dec Hp) as [->|[_ ->]]; [now apply Hprop|lia]. Qed.

(** the code looks at the blocks of [g] that are small enough *)
Lemma split_ok : exists bl W, refresh_matrixs g = Ok (bl, length (inner_cells row column g), flags) /\ reduced row column h (filter (fun B => negb (bigb B)) bl) W /\
  Forall (fun B => length (vars B) <= ENUM_LIMIT) (filter (fun B => negb (bigb B)) bl) /\
  length (inner_cells row column g) + nsum (map (fun B => length (vars B)) (filter bigb bl)) = length (inner_cells row column h) /\
  (let* sq := mapM (fun B => let* (A, x, groups) := combine_cells (map fst (eqs B)) (vars B) in Ok (B, A, x, groups)) (filter (fun B => negb (bigb B)) bl) in
     mapM (fun '(B, A, x, groups) =>
                let* t := cal_table_minenum_recursion A x (map snd (eqs B)) groups in Ok (Piece B groups t)) sq) = Ok (map pieceB (combine (filter (fun B => negb (bigb B)) bl) W)).
Proof.
  destruct Hsat as (Hr & H0 & m0 & Hm0). destruct (refresh_blocks Hr H0) as (bl & k1 & k2 & E & Hg & _ & Nd & Hf & Hn).
  destruct (refresh_matrixs_partition Hr H0) as (bl3 & c1 & c2 & numss & E3 & FD & Ndn & Hnum & _ & _ & Ek1 & Ek2). rewrite E3 in E. injection E as -> -> ->.
  set (sm := filter (fun B => negb (bigb B)) bl).
  assert (Hsm : forall B, In B sm <-> In B bl /\ length (vars B) <= ENUM_LIMIT).
  { intros B. unfold sm, bigb. rewrite filter_In, negb_true_iff, Nat.ltb_ge. reflexivity. }
  assert (Eg : refresh_matrixs g = Ok (bl, length (inner_cells row column g), flags)) by (rewrite E3, Ek1, Ek2; reflexivity).
  assert (Uniq : forall B B' q, In B bl -> In B' bl -> In q (vars B) -> In q (vars B') -> B = B').
  { clear - Nd. intros B B' q HB HB' Hq Hq'. apply in_split in HB as (l1 & l2 & ->). destruct (in_app_or _ _ _ HB') as [Hi|[|Hi]]; auto; exfalso.
    - rewrite map_app, concat_app in Nd. apply (@NoDup_app_not_in _ _ _ q Nd); [apply in_concat; exists (vars B'); split; auto; now apply in_map|]. cbn [map concat]. apply in_app_iff. now left.
    - rewrite map_app, concat_app in Nd. apply NoDup_app_r in Nd. cbn [map concat] in Nd. apply (NoDup_app_not_in Nd Hq). apply in_concat. exists (vars B'). split; auto. now apply in_map. }
  assert (Over : forall q B, In B bl -> In q (vars B) -> (oversized g q <-> 55 < length (vars B))).
  { intros q B HB Hq. split.
    - intros (bl' & j1 & j2 & B' & E' & HB' & L & Hq'). rewrite Eg in E'. injection E' as <- _ _. now rewrite (Uniq B B' q).
    - intros L. exists bl, (length (inner_cells row column g)), flags, B. auto. }
  (* the block of a number *)
  assert (BlockOf : forall n, front_number row column g n -> exists ns B, In ns numss /\ In n ns /\ In B bl /\ describes row column g ns B).
  { intros n Hfn. apply Hnum in Hfn. apply in_concat in Hfn as (ns & Hns & Hin). destruct (Forall2_in_l FD Hns) as (B & HB & HD). eauto 8. }
  assert (Kept : forall n B ns, In B bl -> describes row column g ns B -> In n ns -> front_number row column g n -> (hard_number row column g n <-> 55 < length (vars B))).
  { intros n B ns HB (_ & HI & _) Hin (Hb & Hnu & q0 & Hq0 & Hnear0 & Hc0). split.
    - intros (_ & _ & q & Hq & Hnear & Ho). destruct Ho as (bl' & j1 & j2 & B' & E' & HB' & L & Hq'). rewrite Eg in E'. injection E' as <- _ _.
      assert (In q (vars B)). { apply HI. split; auto. split; [|eauto]. assert (front_cell row column g q) by (apply Hf, in_concat; exists (vars B'); split; auto; now apply in_map). apply H. }
      now rewrite (Uniq B B' q).
    - intros L. split; auto. split; auto. exists q0. split; auto. split; auto. apply (Over q0 B HB); auto. apply HI. split; auto. split; auto. eauto. }
  assert (Hh2 : forall n, front_number row column h n <-> front_number row column g n /\ ~ hard_number row column g n).
  { intros n. split.
    - intros (Hb & Hnu & q & Hq & Hnear & Hc). destruct (number_same Hb Hnu) as [En Hng]. split.
      + split; auto. split; auto. exists q. split; auto. split; auto. pose proof (covered_same Hq) as X. unfold coveredb in X. rewrite Hc in X. cbn [Z.eqb] in X. symmetry in X. now apply Z.eqb_eq in X.
      + intros X. apply Hh in X; auto. unfold number in Hnu. lia.
    - intros [(Hb & Hnu & q & Hq & Hnear & Hc) Hno]. destruct Hh as [_ HH]. apply (HH n Hb) in Hno. split; auto. split; [unfold number in *; now rewrite Hno|].
      exists q. split; auto. split; auto. pose proof (covered_same Hq) as X. unfold coveredb in X. rewrite Hc in X. cbn [Z.eqb] in X. now apply Z.eqb_eq in X. }
  assert (Hfront : forall q, In q (concat (map vars sm)) <-> front_cell row column h q).
  { intros q. split.
    - intros Hq. apply in_concat in Hq as (x & Hx & Hq). apply in_map_iff in Hx as (B & <- & HB). apply Hsm in HB as [HB HL].
      destruct (Forall2_in_r FD HB) as (ns & Hns & HD). pose proof HD as (_ & HI & _). destruct (proj1 (HI q) Hq) as (Hb & Hc & n & Hn1 & Hnear).
      assert (Hfn : front_number row column g n) by (apply Hnum, in_concat; eauto).
      assert (Hno : ~ hard_number row column g n). { rewrite (Kept n B ns); auto. change ENUM_LIMIT with 55 in HL. lia. }
      pose proof (proj2 (Hh2 n) (conj Hfn Hno)) as (Hbn & Hnn & _).
      split; auto. split; [|exists n; auto]. pose proof (covered_same Hb) as X. unfold coveredb in X. rewrite Hc in X. cbn [Z.eqb] in X. now apply Z.eqb_eq in X.
    - intros (Hb & Hc & n & Hbn & Hnear & Hnu). pose proof (proj1 (Hh2 n)) as X. destruct X as [Hfn Hno]. { split; auto. split; auto. exists q. auto. }
      destruct (BlockOf n Hfn) as (ns & B & Hns & Hin & HB & HD). rewrite (Kept n B ns) in Hno by auto. apply in_concat. exists (vars B). split; [apply in_map, Hsm; split; auto; change ENUM_LIMIT with 55; lia|].
      destruct HD as (_ & HI & _). apply HI. split; auto. split; [|eauto]. pose proof (covered_same Hb) as X. unfold coveredb in X. rewrite Hc in X. cbn [Z.eqb] in X. symmetry in X. now apply Z.eqb_eq in X. }
  assert (Hsats0 : forall v, sats v sm <-> forall n, front_number row column h n -> number_ok row column h v n).
  { intros v. unfold sats. rewrite Forall_forall. split.
    - intros Hs n Hfn. pose proof Hfn as (Hb & Hnu & _). destruct (number_same Hb Hnu) as [En _]. apply (@number_ok_same v n En). apply Hh2 in Hfn as [Hfn Hno].
      destruct (BlockOf n Hfn) as (ns & B & Hns & Hin & HB & HD). rewrite (Kept n B ns) in Hno by auto.
      assert (HsB : sat v B) by (apply Hs, Hsm; split; auto; change ENUM_LIMIT with 55; lia).
      apply (describes_sat H0 v HD) in HsB; [rewrite Forall_forall in HsB; auto|]. apply Forall_forall. intros n' Hn'.
      assert (Hfn' : front_number row column g n') by (apply Hnum, in_concat; eauto). split; apply Hfn'.
    - intros Ho B HB. apply Hsm in HB as [HB HL]. destruct (Forall2_in_r FD HB) as (ns & Hns & HD). apply (describes_sat H0 v HD).
      + apply Forall_forall. intros n' Hn'. assert (Hfn' : front_number row column g n') by (apply Hnum, in_concat; eauto). split; apply Hfn'.
      + apply Forall_forall. intros n Hin. assert (Hfn : front_number row column g n) by (apply Hnum, in_concat; eauto).
        assert (Hno : ~ hard_number row column g n). { rewrite (Kept n B ns); auto. change ENUM_LIMIT with 55 in HL. lia. }
        pose proof (proj2 (Hh2 n) (conj Hfn Hno)) as Hfh. pose proof Hfh as (Hb & Hnu & _). destruct (number_same Hb Hnu) as [En _]. now apply (@number_ok_same v n En), Ho. }
  pose proof (consistent_h Hm0) as Hm0h.
  assert (Hsats : forall v, sats v sm <-> consistent row column h (fun p => flaggedb h p || coveredb h p && v p)).
  { intros v. rewrite Hsats0. split.
    - intros H. exact (fill_consistent Hm0h H).
    - intros H n Hn1. pose proof (consistent_front H Hn1) as K. unfold number_ok in *. rewrite K. do 2 f_equal. unfold adj_count. apply count_ext. intros q _. unfold coveredb, flaggedb.
      destruct (Z.eqb_spec (cell h q) 10), (Z.eqb_spec (cell h q) 11), (adjb n q); cbn; auto; lia. }
  assert (Hgs : Forall good_block sm) by (rewrite Forall_forall in *; intros B HB; apply Hg; now apply Hsm in HB as [HB _]).
  assert (Hls : Forall (fun B => length (vars B) <= ENUM_LIMIT) sm) by (apply Forall_forall; intros B HB; now apply Hsm in HB as [_ HB]).
  assert (Hv : sats m0 sm) by (apply Hsats0; intros n Hn1; apply (consistent_front Hm0h Hn1)).
  destruct (pieces_ok Hgs Hv Hls) as (W & HW & EP).
  assert (Perm : Permutation (concat (map vars bl)) (concat (map vars (filter bigb bl)) ++ concat (map vars sm))).
  { unfold sm. clear. induction bl as [|B bl IH]; auto. cbn [map concat filter]. destruct (bigb B); cbn [negb map concat]; rewrite ?IH; permut. }
  assert (Nds : NoDup (concat (map vars sm))) by (pose proof (Permutation_NoDup Perm Nd) as X; now apply NoDup_app_r in X).
  exists bl, W. split; [exact Eg|]. split; [constructor; auto|]. split; [exact Hls|]. split; [|exact EP].
  pose proof (@parts_perm row column g bl Hprop Nd Hf) as P1. pose proof (@parts_perm row column h sm proper_h Nds Hfront) as P2. rewrite covered_list in P2.
  apply Permutation_length in P1, P2, Perm. rewrite app_length in P1, P2, Perm.
  replace (nsum (map (fun B => length (vars B)) (filter bigb bl))) with (length (concat (map vars (filter bigb bl)))); [lia|].
  rewrite nsum_sumn. clear. induction (filter bigb bl) as [|B l IH]; auto. cbn [map concat sumn]. rewrite app_length. lia.
Qed.
End Split.

Lemma cal_unfold_h row column g h : satisfiable row column g -> proper row column g -> without_oversized row column g h ->
  exists bl W k, refresh_matrixs g = Ok (bl, k, flag_count row column h) /\ reduced row column h (filter (fun B => negb (bigb B)) bl) W /\
  forall spec m, (match spec with
             | Ratio k => let* d := usub k (flag_count row column h) in Ok (Nat.min (Nat.max d (nsum (map fst W))) (nsum (map top W) + length (inner_cells row column h)))
             | Count m => if m <? flag_count row column h then Err 17 else Ok (m - flag_count row column h)
             end) = m ->
  cal_possibility g spec = let* m := m in if m <? nsum (map fst W) then Err 3 else
    Ok (entries (filter (fun B => negb (bigb B)) bl) W (length (inner_cells row column h)) m,
        (ways (full (length (inner_cells row column h)) (fun k => k)) (rowsB (filter (fun B => negb (bigb B)) bl) W) (exactly m), n_worlds row column h (flag_count row column h + m) * length (inner_cells row column h)),
        (nsum (map fst W) + flag_count row column h, m + flag_count row column h, Nat.min (nsum (map top W)) m + flag_count row column h + length (inner_cells row column h)), biggest bl).
Proof.
  intros Hsat Hprop Hh. destruct (split_ok Hsat Hprop Hh) as (bl & W & E & R & Hs & Hlen & EP). pose proof (proper_h Hprop Hh) as Hph.
  rewrite (flags_same Hh). exists bl, W, (length (inner_cells row column g)). split; [exact E|]. split; [exact R|]. intros spec m Em.
  set (flags := flag_count row column g) in *. set (sm := filter (fun B => negb (bigb B)) bl) in *. set (U := length (inner_cells row column h)) in *.
  unfold cal_possibility. rewrite E. cbn [bind]. change (filter (fun B : block => ENUM_LIMIT <? length (vars B)) bl) with (filter bigb bl).
  change (filter (fun B : block => negb (ENUM_LIMIT <? length (vars B))) bl) with sm. rewrite Hlen. fold U.
  revert EP. destruct (mapM (fun B => let* (A, x, groups) := combine_cells (map fst (eqs B)) (vars B) in Ok (B, A, x, groups)) sm) as [sq| | |]; cbn [bind]; intros EP; try discriminate EP.
  rewrite EP. cbn [bind]. destruct (mins_ok (st_W R)) as [M1 M2]. rewrite M1, M2. cbn [bind]. rewrite Em. destruct m as [m| | |]; cbn [bind]; auto.
  set (mn := nsum (map fst W)) in *. set (mx := nsum (map top W)) in *.
  assert (Hmm : mn <= mx).
  { pose proof (st_W R) as F. unfold mn, mx. rewrite !nsum_sumn. clear - F. clearbody sm. induction F as [|B w l W0 (Hc & _) F IH]; cbn [map sumn]; auto. unfold top at 1. lia. }
  destruct (Nat.ltb_spec m mn), (Nat.ltb_spec (Nat.min mx m) mn); try lia; auto.
  pose proof (@posterior_ok sm W U m (st_W R) (st_good R)) as P. cbv zeta in P. fold mn mx in P. rewrite P by auto. cbn [bind].
  unfold worlds_total. rewrite (worlds_ok_h Hph R) by (rewrite (flags_same Hh); fold flags; lia). rewrite (flags_same Hh). fold flags. replace (flags + m - flags) with m by lia. reflexivity.
Qed.

(** C81. No bound on the blocks: the function answers what C33 says of the position without the numbers
    of the oversized blocks (whose cells thereby become cells that touch no number). *)
Theorem C81_cal_possibility : forall row column g h M, satisfiable row column g -> proper row column g -> without_oversized row column g h ->
  (M < flag_count row column g -> cal_possibility g (Count M) = Err 17) /\
  (flag_count row column g <= M -> (forall r, r <= M -> n_worlds row column h r = 0) -> cal_possibility g (Count M) = Err 3) /\
  (forall r, r <= M -> n_worlds row column h r <> 0 ->
   exists p pu range len, cal_possibility g (Count M) = Ok (p, pu, range, len) /\
     NoDup (map fst p) /\ (forall q, In q (map fst p) <-> front_cell row column h q) /\
     (forall q a b, In (q, (a, b)) p -> a = n_worlds_at row column h M q /\ b = n_worlds row column h M) /\
     (forall q, inner_cell row column h q -> is_prob pu (n_worlds_at row column h M q) (n_worlds row column h M)) /\
     ((forall q, ~ inner_cell row column h q) -> pu = (0, 0))).
Proof.
  intros row column g h M Hsat Hprop Hh. destruct (cal_unfold_h Hsat Hprop Hh) as (bl & W & k & E & R & HC). pose proof (proper_h Hprop Hh) as Hph.
  rewrite <- (flags_same Hh). set (flags := flag_count row column h) in *. set (mn := nsum (map fst W)) in *.
  pose proof (least_ok_h Hph R) as [HL1 HL2]. fold flags mn in HL1, HL2.
  assert (HD : flags <= M -> (if M <? flags then Err 17 else Ok (M - flags)) = Ok (M - flags)) by (intros H; destruct (Nat.ltb_spec M flags); [lia|reflexivity]).
  split; [|split].
  - intros H. rewrite (HC (Count M) (Err 17)); [reflexivity|]. destruct (Nat.ltb_spec M flags); [reflexivity|lia].
  - intros H Hno. rewrite (HC (Count M) (Ok (M - flags)) (HD H)). cbn [bind]. destruct (Nat.ltb_spec (M - flags) mn); auto.
    exfalso. apply HL1. apply Hno. lia.
  - intros r Hr Hw. assert (Hge : flags + mn <= M) by (destruct (Nat.lt_ge_cases M (flags + mn)); [exfalso; apply Hw, HL2; lia|auto]).
    rewrite (HC (Count M) (Ok (M - flags)) (HD ltac:(lia))). cbn [bind]. clear HC. destruct (Nat.ltb_spec (M - flags) mn); [lia|].
    do 4 eexists. split; [reflexivity|].
    pose proof (entries_cells_h R (M - flags)) as P.
    split; [eapply Permutation_NoDup; [symmetry; exact P|apply (st_nd R)]|]. split.
    { intros q. rewrite <- (st_front R q). split; apply Permutation_in; auto. now symmetry. }
    split. { intros q a b Hin. pose proof (entries_value_h Hph R Hin) as [E1 E2]. fold flags in E1, E2. replace (flags + (M - flags)) with M in * by lia. auto. }
    split.
    + intros q Hq. pose proof (inner_value_h Hph R (M - flags) Hq) as Ev. fold flags in Ev. replace (flags + (M - flags)) with M in * by lia. split; cbn [fst snd].
      * rewrite Ev. lia.
      * intros Hn. apply (inner_iff Hph) in Hq. destruct (inner_cells row column h); [destruct Hq|]. cbn [length]. lia.
    + intros Hno. assert (HU : length (inner_cells row column h) = 0).
      { destruct (inner_cells row column h) as [|q l] eqn:Ei; auto. exfalso. apply (Hno q). apply (inner_iff Hph). rewrite Ei. now left. }
      rewrite (no_inner_h R) by auto. rewrite HU, Nat.mul_0_r. reflexivity.
Qed.
Print Assumptions C81_cal_possibility.

(** the whole board *)
Theorem C81_onboard : forall row column g h M r, satisfiable row column g -> proper row column g -> without_oversized row column g h ->
  r <= M -> n_worlds row column h r <> 0 ->
  exists P range, cal_possibility_onboard g (Count M) = Ok (P, range) /\ rect row column P /\
    forall i j, inb row column (i, j) -> exists f, get P i j = Ok f /\ is_prob f (n_worlds_mine row column h M (i, j)) (n_worlds row column h M).
Proof.
  intros row column g h M r Hsat Hprop Hh HM Hw. pose proof Hsat as (Hr & H0 & _).
  destruct (@C81_cal_possibility row column g h M Hsat Hprop Hh) as (_ & _ & H). destruct (H r HM Hw) as (p & pu & range & len & E & Nd & Hf & Hv & Hi & _). clear H.
  unfold cal_possibility_onboard. rewrite (nrows_ok Hr), (ncolsR_ok Hr H0). cbn [bind]. rewrite E. cbn [bind].
  destruct (@put_ok row column p (mkboard row column None) (rect_mkboard _ _ _) Nd) as (p1 & E1 & Hp1 & V1 & O1). { intros q Hq. apply Hf in Hq. apply Hq. }
  rewrite E1. cbn [bind]. destruct (@finish_ok row column g Hr pu p1 Hp1) as (p2 & E2 & Hp2 & V2).
  match type of E2 with ?L = _ => match goal with |- context [bind ?X _] => change X with L end end. rewrite E2. cbn [bind].
  do 2 eexists. split; [reflexivity|].
  assert (Hrect : rect row column (map (map (fun o : option frac => match o with Some f => f | None => (0, 1) end)) p2)).
  { destruct Hp2 as [L F]. split; [now rewrite map_length|]. rewrite Forall_forall in *. intros x Hx. apply in_map_iff in Hx as (y & <- & Hy). rewrite map_length. auto. }
  split; auto. intros i j Hb. set (q := (i, j)) in *.
  assert (Eg : get (map (map (fun o : option frac => match o with Some f => f | None => (0, 1) end)) p2) i j = Ok (match gcell None p2 q with Some f => f | None => (0, 1) end)).
  { refine (eq_trans (get_gok (0, 1) Hrect Hb) _). f_equal. unfold gcell, q. cbn [fst snd]. destruct Hb as [B1 B2]. cbn [fst snd] in B1, B2. pose proof (rect_row Hp2 B1) as Lr. destruct Hp2 as [L2 _].
    rewrite (@nth_map_lt _ _ _ p2 i [] []) by exact (eq_ind_r (fun n => i < n) B1 L2). rewrite (@nth_map_lt _ _ _ _ j (0, 1) None) by exact (eq_ind_r (fun n => j < n) B2 Lr). reflexivity. }
  eexists. split; [exact Eg|]. clear Eg. rewrite V2 by auto. rewrite (mine_count h M Hb). unfold final.
  assert (C : cell h q = cell g q \/ cell g q <> 10%Z /\ cell g q <> 11%Z /\ cell h q = 12%Z).
  { destruct (cell_dec Hh Hb) as [C|[N C]]; auto. right. unfold number in N. split; [lia|split; [lia|exact C]]. }
  assert (K10 : cell h q = 10%Z <-> cell g q = 10%Z) by (destruct C as [C|(N1 & N2 & C)]; rewrite C; lia).
  assert (K11 : cell h q = 11%Z <-> cell g q = 11%Z) by (destruct C as [C|(N1 & N2 & C)]; rewrite C; lia).
  clear C. destruct (Z.eqb_spec (cell g q) 11) as [E11|N11]; [rewrite (proj2 K11 E11); split; cbn; lia|].
  destruct (Z.eqb_spec (cell h q) 11) as [E11|N11']; [exfalso; tauto|].
  destruct (in_dec pos_eq_dec q (map fst p)) as [Hin|Hout].
  - apply in_map_iff in Hin as ([q' [a b]] & Eq & Hin). cbn [fst] in Eq. subst q'. rewrite (V1 q (a, b) Hin). destruct (Hv q a b Hin) as [-> ->].
    assert (Hfr : front_cell row column h q) by (apply Hf; apply in_map_iff; exists (q, (n_worlds_at row column h M q, n_worlds row column h M)); auto).
    destruct Hfr as (_ & Hc & _). rewrite Hc, (proj1 K10 Hc). cbn. split; cbn; auto.
  - rewrite O1 by auto. rewrite gcell_mkboard by auto. destruct (Z.eqb_spec (cell g q) 10) as [Hc|Hc], (Z.eqb_spec (cell h q) 10) as [Hc'|Hc']; [|exfalso; tauto|exfalso; tauto|split; cbn; lia].
    apply Hi. split; auto. split; auto. intros z Hz Hn Hnum. apply Hout, Hf. split; auto. split; auto. exists z. auto.
Qed.
Print Assumptions C81_onboard.

(** The three mine numbers, also those of [h]; the last component is still the size of the largest block
    of [g] (the documentation: how far the position is beyond the limit). *)
Theorem C81_range : forall row column g h M lo hi, satisfiable row column g -> proper row column g -> without_oversized row column g h ->
  least_mines row column h lo -> most_mines row column h hi -> lo <= M ->
  exists p pu len, cal_possibility g (Count M) = Ok (p, pu, (lo, M, Nat.min hi (M + n_inner row column h)), len) /\
    forall bl k1 k2, refresh_matrixs g = Ok (bl, k1, k2) ->
      (forall B, In B bl -> length (vars B) <= len) /\ (bl <> [] -> exists B, In B bl /\ length (vars B) = len).
Proof.
  intros row column g h M lo hi Hsat Hprop Hh Hlo Hhi HM. destruct (cal_unfold_h Hsat Hprop Hh) as (bl & W & k & E & R & HC). pose proof (proper_h Hprop Hh) as Hph.
  pose proof (least_unique Hlo (least_ok_h Hph R)) as El. pose proof (most_unique Hhi (most_ok_h Hph R)) as Eh.
  set (flags := flag_count row column h) in *. rewrite (HC (Count M) (Ok (M - flags))).
  2:{ destruct (Nat.ltb_spec M flags); [lia|reflexivity]. }
  cbn [bind]. destruct (Nat.ltb_spec (M - flags) (nsum (map fst W))); [lia|]. rewrite (n_inner_cells Hph).
  do 3 eexists. split.
  - do 3 f_equal. apply f_equal2; [apply f_equal2|]; lia.
  - intros bl' k1 k2 E'. rewrite E in E'. injection E' as <- _ _. clear. unfold biggest. rewrite <- fold_left_rev_right, rev_involutive.
    split.
    + intros B HB. induction bl as [|B' bl IH]; [destruct HB|]. cbn [map fold_right]. destruct HB as [->|HB]; [lia|]. specialize (IH HB). lia.
    + intros Hne. induction bl as [|B bl IH]; [contradiction|]. cbn [map fold_right]. destruct bl as [|B2 bl].
      * exists B. split; [now left|]. cbn. lia.
      * destruct IH as (B' & Hi & Eb); [discriminate|]. set (r := fold_right _ _ _) in *. destruct (Nat.le_gt_cases r (length (vars B))).
        -- exists B. split; [now left|]. lia.
        -- exists B'. split; [now right|]. lia.
Qed.
Print Assumptions C81_range.
Theorem C81_ratio : forall row column g h k lo hi, satisfiable row column g -> proper row column g -> without_oversized row column g h ->
  least_mines row column h lo -> most_mines row column h hi ->
  (k < flag_count row column g -> cal_possibility g (Ratio k) = Panic) /\
  (flag_count row column g <= k -> cal_possibility g (Ratio k) = cal_possibility g (Count (Nat.min (Nat.max k lo) hi))).
Proof.
  intros row column g h k lo hi Hsat Hprop Hh Hlo Hhi. destruct (cal_unfold_h Hsat Hprop Hh) as (bl & W & kk & E & R & HC). pose proof (proper_h Hprop Hh) as Hph.
  pose proof (least_unique Hlo (least_ok_h Hph R)) as El. pose proof (most_unique Hhi (most_ok_h Hph R)) as Eh. rewrite <- (flags_same Hh).
  set (flags := flag_count row column h) in *. split.
  - intros H. rewrite (HC (Ratio k) Panic); [reflexivity|]. unfold usub. destruct (Nat.leb_spec flags k); [lia|reflexivity].
  - intros H. set (m := Nat.min (Nat.max (k - flags) (nsum (map fst W))) (nsum (map top W) + length (inner_cells row column h))).
    rewrite (HC (Ratio k) (Ok m)).
    2:{ unfold usub. destruct (Nat.leb_spec flags k); [reflexivity|lia]. }
    rewrite (HC (Count _) (Ok m)); auto.
    destruct (Nat.ltb_spec (Nat.min (Nat.max k lo) hi) flags); [lia|]. f_equal. unfold m. lia.
Qed.
Print Assumptions C81_ratio.

(** Such a position [h] always exists, and it is [g] itself exactly when no number touches an oversized block, in
    particular when the blocks are small: then C81 is C33. *)
Definition oversizedb (g : board) (q : pos) : bool :=
  match refresh_matrixs g with Ok (bl, _, _) => existsb (fun B => (55 <? length (vars B)) && mem_pos q (vars B)) bl | _ => false end.
Lemma oversizedb_iff g q : oversizedb g q = true <-> oversized g q.
Proof.
  unfold oversizedb, oversized. split.
  - intros H. destruct (refresh_matrixs g) as [[[bl k1] k2]| | |]; try discriminate H. apply existsb_exists in H as (B & HB & H). apply andb_true_iff in H as [H1 H2].
    exists bl, k1, k2, B. split; auto. split; auto. split; [now apply Nat.ltb_lt|]. now apply mem_pos_true.
  - intros (bl & k1 & k2 & B & E & HB & L & Hq). rewrite E. apply existsb_exists. exists B. split; auto. apply andb_true_iff. split; [now apply Nat.ltb_lt|now apply mem_pos_true].
Qed.
Definition hardb (row column : nat) (g : board) (n : pos) : bool :=
  (0 <=? cell g n)%Z && (cell g n <? 10)%Z && existsb (fun q => nearb n q && oversizedb g q) (positions row column).
Definition stripped (row column : nat) (g : board) : board :=
  map (fun i => map (fun j => if hardb row column g (i, j) then 12%Z else cell g (i, j)) (seq 0 column)) (seq 0 row).
Theorem C81_exists : forall row column g, without_oversized row column g (stripped row column g).
Proof.
  intros row column g. split.
  - split; [unfold stripped; now rewrite map_length, seq_length|]. apply Forall_forall. intros x Hx. apply in_map_iff in Hx as (i & <- & _). now rewrite map_length, seq_length.
  - intros [i j] Hb. assert (E : cell (stripped row column g) (i, j) = if hardb row column g (i, j) then 12%Z else cell g (i, j)).
    { destruct Hb as [B1 B2]. cbn [fst snd] in B1, B2. unfold cell, stripped. cbn [fst snd].
      rewrite (@nth_map_lt _ _ _ (seq 0 row) i [] 0) by (now rewrite seq_length). rewrite (@nth_map_lt _ _ _ (seq 0 column) j _ 0) by (now rewrite seq_length). now rewrite !seq_nth. }
    assert (K : hardb row column g (i, j) = true <-> hard_number row column g (i, j)).
    { unfold hardb, hard_number, number. rewrite !andb_true_iff, Z.leb_le, Z.ltb_lt, existsb_exists. split.
      - intros [H (q & Hq & H2)]. apply andb_true_iff in H2 as [H2 H3]. split; auto. split; [exact H|]. exists q. split; [now apply in_positions|]. split; [now destruct (nearb_spec (i, j) q)|]. now apply oversizedb_iff.
      - intros (_ & H & q & Hq & H2 & H3). split; [exact H|]. exists q. split; [now apply in_positions|]. apply andb_true_iff. split; [now destruct (nearb_spec (i, j) q)|]. now apply oversizedb_iff. }
    rewrite E. destruct (hardb row column g (i, j)) eqn:Eb.
    + split; auto. intros Hn. exfalso. apply Hn, K. reflexivity.
    + split; auto. intros Hn. apply K in Hn. discriminate Hn.
Qed.
Print Assumptions C81_exists.
Lemma C81_small : forall row column g, rect row column g -> small_blocks g -> without_oversized row column g g.
Proof.
  intros row column g Hr Hs. split; auto. intros p Hp. split; auto. intros (_ & _ & q & _ & _ & bl & k1 & k2 & B & E & HB & L & _). exfalso.
  pose proof (Hs bl k1 k2 E) as F. rewrite Forall_forall in F. specialize (F B HB). lia.
Qed.


(** A block of 56 cells: the numbers 1 1 0 0 0 ... above a row of covered cells. The first of them is a
    mine in every explanation; the function gives it, and every other one, the probability 1 / 56. *)
Definition long_demo : board := [[1; 1]%Z ++ repeat 0%Z 54; repeat 10%Z 56].
Lemma first_is_mine column g m : 2 < column -> consistent 2 column g m -> cell g (0, 0) = 1%Z -> cell g (0, 1) = 1%Z -> cell g (0, 2) = 0%Z -> m (1, 0) = true.
Proof.
  intros Hcol Hm C0 C1 C2.
  assert (B : forall i j, i < 2 -> j < column -> inb 2 column (i, j)) by (intros; split; assumption).
  destruct (Hm (0, 0)) as (_ & _ & H0); [apply B; lia|]. destruct (Hm (0, 2)) as (_ & H2' & H2); [apply B; lia|]. destruct (Hm (0, 1)) as (_ & H1 & _); [apply B; lia|].
  unfold number in *. rewrite C0 in *. rewrite C1 in *. rewrite C2 in *.
  specialize (H0 ltac:(lia)). specialize (H2 ltac:(lia)). specialize (H1 ltac:(lia) ltac:(lia)). 
  assert (N11 : m (1, 1) = false).
  { destruct (m (1, 1)) eqn:E; auto. exfalso. unfold adj_count, count in H2.
    assert (X : In (1, 1) (filter (fun q => adjb (0, 2) q && m q) (positions 2 column))).
    { apply filter_In. split; [apply in_positions, B; lia|]. rewrite E. reflexivity. }
    set (l := filter (fun q => adjb (0, 2) q && m q) (positions 2 column)) in *. clearbody l. clear - X H2. destruct l; [destruct X|cbn [length] in H2; lia]. }
  destruct (m (1, 0)) eqn:E0; auto. exfalso. unfold adj_count in H0.
  rewrite (@count_ext _ _ (fun _ => false)) in H0.
  - unfold count in H0. revert H0. generalize (positions 2 column) as l. clear. intros l. induction l as [|a l IH]; cbn; [lia|exact IH].
  - intros [i j] Hq. apply in_positions in Hq as [Q1 Q2]. cbn [fst snd] in Q1, Q2. clear - Q1 E0 H1 N11.
    apply andb_false_iff. destruct i as [|[|i]]; [| |lia]; (destruct j as [|[|j]]; [| |left; reflexivity]); auto.
Qed.
Theorem C81_certain_mine_missed : satisfiable 2 56 long_demo /\ proper 2 56 long_demo /\
  (forall m, consistent 2 56 long_demo m -> m (1, 0) = true) /\
  cal_possibility long_demo (Count 1) = Ok ([], (56, 56 * 56), (0, 1, 56), 56).
Proof.
  split; [|split; [|split]].
  - apply (@PropsSolver.satisfiable_ok 2 56 _ (fun p => posb p (1, 0))); [split; [reflexivity|repeat constructor]|lia|vm_compute; reflexivity].
  - assert (X : forallb (fun p => (0 <=? cell long_demo p)%Z) (positions 2 56) = true) by (vm_compute; reflexivity).
    rewrite forallb_forall in X. intros p Hp. apply Z.leb_le, X. now apply in_positions.
  - intros m Hm. apply (@first_is_mine 56 long_demo m); [lia|exact Hm|vm_compute; reflexivity..].
  - vm_compute. reflexivity.
Qed.
Print Assumptions C81_certain_mine_missed.
(** The same block next to a small one (the last number touches the last two cells): these two get their exact
    share of the explanations of the position without the first 56 numbers. *)
Definition mixed_demo : board := [[1; 1]%Z ++ repeat 0%Z 54 ++ [12; 12; 1]%Z; repeat 10%Z 59].
Definition mixed_rest : board := [repeat 12%Z 58 ++ [1]%Z; repeat 10%Z 59].
Lemma stripped_lazy row column g : stripped row column g =
  map (fun i => map (fun j => if (if (0 <=? cell g (i, j))%Z && (cell g (i, j) <? 10)%Z then existsb (fun q => if nearb (i, j) q then oversizedb g q else false) (positions row column) else false)
    then 12%Z else cell g (i, j)) (seq 0 column)) (seq 0 row).
Proof. reflexivity. Qed.
Example C81_mixed : satisfiable 2 59 mixed_demo /\ proper 2 59 mixed_demo /\ without_oversized 2 59 mixed_demo mixed_rest /\ oversized mixed_demo (1, 0) /\
  exists pu range, cal_possibility mixed_demo (Count 2) = Ok ([((1, 57), (57, 114)); ((1, 58), (57, 114))], pu, range, 57).
Proof.
  split; [|split; [|split; [|split]]].
  - apply (@PropsSolver.satisfiable_ok 2 59 _ (fun p => posb p (1, 0) || posb p (1, 57))); [split; [reflexivity|repeat constructor]|lia|vm_compute; reflexivity].
  - assert (X : forallb (fun p => (0 <=? cell mixed_demo p)%Z) (positions 2 59) = true) by (vm_compute; reflexivity).
    rewrite forallb_forall in X. intros p Hp. apply Z.leb_le, X. now apply in_positions.
  - assert (E : mixed_rest = stripped 2 59 mixed_demo) by (rewrite stripped_lazy; vm_compute; reflexivity). rewrite E. apply C81_exists.
  - apply oversizedb_iff. vm_compute. reflexivity.
  - do 2 eexists. vm_compute. reflexivity.
Qed.
