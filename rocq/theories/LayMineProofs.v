(** * Proofs about LayMine. *)
From Verif Require Import Base Spec BaseFacts LayMine.
Open Scope Z_scope.

Lemma usub_ok a b : (b <= a)%nat -> usub a b = Ok (a - b)%nat.
Proof. intros. unfold usub. destruct (Nat.leb_spec b a); auto; lia. Qed.

Lemma upd_same row column (b : board) p :
  rect row column b -> inb row column p -> upd b p (cell b p) = b.
Proof.
  intros Hr Hp. apply (@board_ext row column); auto using rect_upd.
  intros q Hq. rewrite (cell_upd _ _ Hr Hp). destruct (posb_spec p q); congruence.
Qed.

Definition inl (p : pos) (l : list pos) : bool := existsb (posb p) l.
Lemma inl_spec p l : reflect (In p l) (inl p l).
Proof.
  unfold inl. destruct (existsb (posb p) l) eqn:E; constructor.
  - apply existsb_exists in E as (q & Hq & Hpq). destruct (posb_spec p q); congruence.
  - intros H. assert (existsb (posb p) l = true); [|congruence].
    apply existsb_exists. exists p. split; auto using posb_refl.
Qed.

(** A loop that rewrites each listed cell as a function of its own content. *)
Lemma foldM_pointwise row column (h : board -> pos -> R board) (g : pos -> Z -> Z) l :
  NoDup l -> (forall p, In p l -> inb row column p) ->
  (forall b p, In p l -> rect row column b -> h b p = Ok (upd b p (g p (cell b p)))) ->
  forall b, rect row column b ->
  exists b', foldM h l b = Ok b' /\ rect row column b' /\
    forall q, cell b' q = if inl q l then g q (cell b q) else cell b q.
Proof.
  induction l as [|p l IH]; intros Hnd Hin Hh b Hb.
  - exists b; simpl; auto.
  - inversion Hnd as [|? ? Hp Hnd']; subst. simpl. rewrite Hh by (auto using in_eq). simpl.
    destruct (IH Hnd') with (b := upd b p (g p (cell b p))) as (b' & E & Hr & Hc).
    + intros; apply Hin; right; auto.
    + intros; apply Hh; auto. right; auto.
    + now apply rect_upd.
    + exists b'; split; [exact E|]. split; [exact Hr|]. intros q. rewrite Hc.
      rewrite !(@cell_upd row column) by (auto; apply Hin; left; auto).
      rewrite (posb_sym q p). destruct (posb_spec p q) as [<-|Hn]; simpl; auto.
      destruct (inl_spec p l); [contradiction|reflexivity].
Qed.

Lemma bump_ok row column b x y :
  rect row column b ->
  exists b', bump row column b x y = Ok b' /\ rect row column b' /\
    forall q, inb row column q ->
      cell b' q = if nearb (x, y) q && (0 <=? cell b q) then cell b q + 1 else cell b q.
Proof.
  intros Hb. unfold bump.
  destruct (@foldM_pointwise row column
             (fun b '(j, k) => let* v := get b j k in if 0 <=? v then set b j k (v + 1) else Ok b)
             (fun _ v => if 0 <=? v then v + 1 else v) (zone row column x y)) with (b := b)
    as (b' & E & Hr & Hc); auto.
  - apply NoDup_zone.
  - intros p Hp. apply in_zone in Hp; tauto.
  - intros b0 [j k] Hp H0. apply in_zone in Hp as [Hp _].
    rewrite (get_ok H0 Hp). simpl.
    destruct (0 <=? cell b0 (j, k)).
    + apply (set_ok _ H0 Hp).
    + now rewrite (upd_same H0 Hp).
  - exists b'; split; [exact E|]. split; [exact Hr|]. intros q Hq. rewrite Hc.
    destruct (inl_spec q (zone row column x y)) as [Hz|Hz]; rewrite in_zone in Hz;
      destruct (nearb_spec (x, y) q); simpl; auto; tauto.
Qed.

(** board after placing the mines of [D] *)
Definition laid (row column : nat) (D : pos -> bool) (b : board) : Prop :=
  rect row column b /\
  forall p, inb row column p ->
    cell b p = if D p then -1 else Z.of_nat (adj_count row column D p).

Lemma adj_count_add row column D p q :
  inb row column p -> D p = false -> inb row column q ->
  adj_count row column (fun x => D x || posb p x) q =
  (adj_count row column D q + if adjb q p then 1 else 0)%nat.
Proof.
  intros Hp HD Hq. unfold adj_count.
  pose proof (@count_point _ pos_eq_dec (fun x => adjb q x && (D x || posb p x))
                (fun x => adjb q x && D x) (positions row column) p
                (NoDup_positions row column)) as H.
  specialize (H (proj2 (in_positions _ _ _) Hp)). cbv beta in H.
  rewrite HD, posb_refl, andb_false_r, andb_true_r in H.
  rewrite Nat.add_0_r in H. apply H.
  intros x Hx. destruct (posb_spec p x); [congruence|]. now rewrite orb_false_r.
Qed.

Lemma adj_count_ext row column f g p :
  (forall q, inb row column q -> f q = g q) -> adj_count row column f p = adj_count row column g p.
Proof.
  intros H. apply count_ext. intros q Hq. apply in_positions in Hq. now rewrite H.
Qed.

Lemma laid_ext row column D D' b :
  (forall q, inb row column q -> D q = D' q) -> laid row column D b -> laid row column D' b.
Proof.
  intros H [Hr Hc]. split; auto. intros p Hp. rewrite (Hc p Hp), H by auto.
  rewrite (@adj_count_ext _ _ D D') by auto. reflexivity.
Qed.

Lemma place_mine row column D b x y :
  laid row column D b -> inb row column (x, y) -> D (x, y) = false ->
  exists b', (let* b := set b x y (-1) in bump row column b x y) = Ok b' /\
    laid row column (fun q => D q || posb (x, y) q) b'.
Proof.
  intros [Hr Hc] Hp HD. rewrite (set_ok _ Hr Hp). simpl.
  pose proof (rect_upd (x, y) (-1) Hr) as Hr'.
  destruct (bump_ok x y Hr') as (b' & E & Hb' & Hc').
  exists b'; split; [exact E|]. split; [exact Hb'|].
  intros q Hq. rewrite (Hc' q Hq). rewrite (cell_upd _ _ Hr Hp).
  rewrite (adj_count_add Hp HD Hq). rewrite adjb_sym. unfold adjb.
  destruct (posb_spec (x, y) q) as [<-|Hn].
  - rewrite orb_true_r. rewrite andb_false_r. reflexivity.
  - rewrite orb_false_r. simpl. rewrite (Hc q Hq).
    destruct (D q); [rewrite andb_false_r; reflexivity|].
    rewrite (proj2 (Z.leb_le 0 _) (Nat2Z.is_nonneg _)), andb_true_r.
    destruct (nearb (x, y) q); lia.
Qed.

Lemma laid_legal row column D b :
  laid row column D b -> legal_board row column b /\
    (forall p, inb row column p -> is_mine b p = D p).
Proof.
  intros [Hr Hc].
  assert (Hm : forall p, inb row column p -> is_mine b p = D p).
  { intros p Hp. unfold is_mine. rewrite (Hc p Hp). destruct (D p); [reflexivity|].
    apply Z.eqb_neq. lia. }
  split; auto. split; auto. intros p Hp. rewrite (Hc p Hp).
  destruct (D p); [left; reflexivity|right].
  f_equal. apply adj_count_ext. intros q Hq. now rewrite Hm.
Qed.

(** column-major index of a cell, as used by laymine *)
Definition idx (row : nat) (p : pos) : nat := (fst p + snd p * row)%nat.
Definition unidx (row i : nat) : pos := (i mod row, i / row)%nat.

Lemma unidx_idx row p : (fst p < row)%nat -> unidx row (idx row p) = p.
Proof.
  intros H. destruct p as [x y]; unfold unidx, idx; simpl in *.
  rewrite Nat.mod_add, Nat.mod_small by lia.
  rewrite Nat.div_add, Nat.div_small by lia. reflexivity.
Qed.
Lemma idx_unidx row i : (0 < row)%nat -> idx row (unidx row i) = i.
Proof.
  intros H. unfold unidx, idx; simpl. rewrite (Nat.div_mod i row) at 3 by lia. lia.
Qed.
Lemma idx_lt row column p : inb row column p -> (idx row p < row * column)%nat.
Proof. intros [H1 H2]. unfold idx. nia. Qed.
Lemma unidx_inb row column i : (i < row * column)%nat -> inb row column (unidx row i).
Proof.
  intros H. assert (0 < row)%nat by nia. unfold unidx, inb; simpl. split.
  - apply Nat.mod_upper_bound; lia.
  - apply Nat.div_lt_upper_bound; lia.
Qed.

Lemma count_idx row column (f : nat -> bool) :
  count (fun p => f (idx row p)) (positions row column) = count f (seq 0 (row * column)).
Proof.
  rewrite <- count_map with (h := idx row) (f := f).
  apply count_permutation. apply NoDup_Permutation.
  - apply NoDup_map_in; [|apply NoDup_positions].
    intros p q Hp Hq E. apply in_positions in Hp, Hq.
    rewrite <- (@unidx_idx row p), <- (@unidx_idx row q), E; auto; [apply Hq|apply Hp].
  - apply seq_NoDup.
  - intros i. rewrite in_map_iff, in_seq. split.
    + intros (p & <- & Hp). apply in_positions, idx_lt in Hp. lia.
    + intros [_ Hi]. simpl in Hi. exists (unidx row i). split.
      * apply idx_unidx. nia.
      * apply in_positions, unidx_inb; auto.
Qed.

Lemma count_nth {A} (d : A) (f : A -> bool) l :
  count (fun i => f (nth i l d)) (seq 0 (length l)) = count f l.
Proof.
  rewrite <- count_map with (h := fun i => nth i l d) (f := f). f_equal.
  induction l as [|x l IH]; simpl; [reflexivity|]. f_equal.
  rewrite <- seq_shift, map_map. exact IH.
Qed.

(** push loop = slicing *)
Lemma push_loop (dim acc : list Z) a b :
  (a <= b)%nat -> (b <= length dim)%nat ->
  foldM (fun acc i => let* v := vget dim i in Ok (acc ++ [v])) (rng a b) acc =
  Ok (acc ++ firstn (b - a) (skipn a dim)).
Proof.
  intros Hab Hb. unfold rng. remember (b - a)%nat as n eqn:En.
  revert a acc Hab En. induction n as [|n IH]; intros a acc Hab En; simpl.
  - now rewrite app_nil_r.
  - rewrite (@vget_ok _ dim a 0) by lia. simpl. rewrite IH by lia.
    rewrite <- app_assoc. f_equal. f_equal.
    assert (E : skipn a dim = nth a dim 0 :: skipn (S a) dim).
    { assert (Ha : (a < length dim)%nat) by lia.
      clear -Ha. revert a Ha. induction dim as [|h t IH]; intros [|a] Ha; simpl in *; try lia; auto.
      apply IH; lia. }
    rewrite E. reflexivity.
Qed.

Definition mines01 (z m : nat) : list Z := repeat 0 z ++ repeat (-1) m.
Lemma mines01_count z m : count (fun v => v <? 0) (mines01 z m) = m.
Proof.
  unfold mines01. rewrite count_app. rewrite count_zero.
  - simpl. induction m; simpl; [reflexivity|]. rewrite count_cons, IHm. reflexivity.
  - intros x Hx. apply repeat_spec in Hx. subst; reflexivity.
Qed.
Lemma mines01_length z m : length (mines01 z m) = (z + m)%nat.
Proof. unfold mines01. now rewrite app_length, !repeat_length. Qed.

(** laying a one-dimensional arrangement *)
Lemma lay_dim row column (d2 : list Z) :
  length d2 = (row * column)%nat ->
  exists b,
    foldM (fun b i =>
           let* v := vget d2 i in
           if v <? 0 then
             let x := (i mod row)%nat in
             let y := (i / row)%nat in
             let* b := set b x y (-1) in
             bump row column b x y
           else Ok b)
        (rng 0 (row * column)) (mkboard row column 0) = Ok b /\
    laid row column (fun p => nth (idx row p) d2 0 <? 0) b.
Proof.
  intros Hl. unfold rng. rewrite Nat.sub_0_r.
  destruct (@foldM_inv board nat
    (fun b i =>
           let* v := vget d2 i in
           if v <? 0 then
             let x := (i mod row)%nat in
             let y := (i / row)%nat in
             let* b := set b x y (-1) in
             bump row column b x y
           else Ok b)
    (fun done b => laid row column (fun p => (idx row p <? length done)%nat && (nth (idx row p) d2 0 <? 0)) b)
    (seq 0 (row * column)) (mkboard row column 0)) as (b & E & HP).
  - split; [apply rect_mkboard|]. intros p Hp. rewrite cell_mkboard by auto.
    simpl. unfold adj_count. rewrite count_zero; [reflexivity|].
    intros; now rewrite andb_false_r.
  - intros done x rest b Hs HP.
    assert (Hx : x = length done /\ (x < row * column)%nat).
    { assert (Hlen : length (seq 0 (row * column)) = length (done ++ x :: rest)) by now rewrite Hs.
      rewrite seq_length, app_length in Hlen. simpl in Hlen.
      pose proof (f_equal (fun l => nth (length done) l 0%nat) Hs) as Hn. simpl in Hn.
      rewrite seq_nth in Hn by lia. rewrite app_nth2, Nat.sub_diag in Hn by lia. simpl in Hn.
      lia. }
    destruct Hx as [Hx Hlt].
    rewrite (@vget_ok _ d2 x 0) by lia. simpl.
    assert (Hrow : (0 < row)%nat) by nia.
    pose proof (unidx_inb Hlt) as Hin.
    destruct (nth x d2 0 <? 0) eqn:Ev.
    + unfold unidx in Hin.
      destruct (@place_mine row column _ b (x mod row) (x / row) HP Hin) as (b' & E & HL).
      { fold (unidx row x). rewrite idx_unidx by auto. subst x. rewrite Nat.ltb_irrefl. reflexivity. }
      exists b'. split; [exact E|]. eapply laid_ext; [|exact HL].
      intros q Hq. simpl. fold (unidx row x). rewrite app_length. simpl.
      destruct (posb_spec (unidx row x) q) as [<-|Hn].
      * rewrite idx_unidx by auto. rewrite Ev, orb_true_r, andb_true_r. symmetry. apply Nat.ltb_lt. lia.
      * assert (idx row q <> x). { intros <-. apply Hn, unidx_idx. apply Hq. }
        rewrite orb_false_r.
        destruct (Nat.ltb_spec (idx row q) (length done)), (Nat.ltb_spec (idx row q) (length done + 1)); auto; lia.
    + exists b. split; [reflexivity|]. eapply laid_ext; [|exact HP].
      intros q Hq. simpl. rewrite app_length; simpl.
      destruct (Nat.eq_dec (idx row q) x) as [->|Hne].
      * rewrite Ev, !andb_false_r. reflexivity.
      * destruct (Nat.ltb_spec (idx row q) (length done)), (Nat.ltb_spec (idx row q) (length done + 1)); auto; lia.
  - exists b. split; [exact E|]. eapply laid_ext; [|exact HP].
    intros q Hq. simpl. rewrite seq_length.
    pose proof (idx_lt Hq). destruct (Nat.ltb_spec (idx row q) (row * column)); auto; lia.
Qed.

Lemma laymine_dim shuf row column minenum X0 Y0 :
  inb row column (X0, Y0) -> (minenum <= row * column - 1)%nat ->
  length (shuf (mines01 (row * column - 1 - minenum) minenum)) = (row * column - 1)%nat ->
  let dim := shuf (mines01 (row * column - 1 - minenum) minenum) in
  let p := idx row (X0, Y0) in
  exists b, laymine shuf row column minenum X0 Y0 = Ok b /\
    laid row column (fun q => nth (idx row q) (firstn p dim ++ 0 :: skipn p dim) 0 <? 0) b.
Proof.
  intros Hin Hm Hlen. cbv zeta. set (dim := shuf _) in *. set (p := idx row (X0, Y0)).
  assert (Hrc : (0 < row * column)%nat) by (unfold inb in Hin; simpl in Hin; nia).
  assert (Hp : (p < row * column)%nat) by (apply idx_lt; auto).
  unfold laymine. rewrite usub_ok by lia. cbn [bind].
  rewrite usub_ok by lia. cbn [bind].
  change (repeat 0 (row * column - 1 - minenum) ++ repeat (-1) minenum)
    with (mines01 (row * column - 1 - minenum) minenum).
  fold dim. change (X0 + Y0 * row)%nat with p.
  rewrite push_loop by lia. cbn [bind]. rewrite push_loop by lia. cbn [bind].
  rewrite Nat.sub_0_r. cbn [skipn]. replace (row * column - 1 + 1)%nat with (row * column)%nat by lia.
  rewrite (@firstn_all2 _ (row * column - 1 - p) (skipn p dim)) by (rewrite skipn_length; lia).
  rewrite app_nil_l, <- app_assoc. cbn [app].
  apply lay_dim. rewrite app_length, firstn_length; simpl. rewrite skipn_length. lia.
Qed.

Lemma laymine_ok shuf row column minenum X0 Y0 :
  (forall l, Permutation l (shuf l)) ->
  inb row column (X0, Y0) -> (minenum <= row * column - 1)%nat ->
  exists b, laymine shuf row column minenum X0 Y0 = Ok b /\
    legal_board row column b /\ mine_count row column b = minenum /\ is_mine b (X0, Y0) = false.
Proof.
  intros Hs Hin Hm.
  pose proof (Permutation_length (Hs (mines01 (row * column - 1 - minenum) minenum))) as Hlen.
  rewrite mines01_length in Hlen.
  destruct (@laymine_dim shuf row column minenum X0 Y0 Hin Hm) as (b & E & HL); [lia|].
  set (dim := shuf _) in *. set (p := idx row (X0, Y0)) in *.
  destruct (laid_legal HL) as [Hleg Hmine].
  pose proof (idx_lt Hin) as Hp. fold p in Hp.
  exists b. split; [exact E|]. split; [exact Hleg|]. split.
  - unfold mine_count.
    rewrite (count_ext (g := fun q => nth (idx row q) (firstn p dim ++ 0 :: skipn p dim) 0 <? 0))
      by (intros q Hq; apply Hmine, in_positions, Hq).
    rewrite (count_idx row column (fun i => nth i (firstn p dim ++ 0 :: skipn p dim) 0 <? 0)).
    replace (row * column)%nat with (length (firstn p dim ++ 0 :: skipn p dim))
      by (rewrite app_length, firstn_length; simpl; rewrite skipn_length; lia).
    rewrite (count_nth 0 (fun v => v <? 0)).
    rewrite count_app, count_cons. simpl.
    rewrite <- count_app, firstn_skipn.
    unfold dim. rewrite <- (count_permutation _ (Hs (mines01 _ _))). apply mines01_count.
  - rewrite Hmine by auto. fold p. rewrite app_nth2; rewrite firstn_length, Nat.min_l by lia; [|lia].
    rewrite Nat.sub_diag. reflexivity.
Qed.

(** ** cal_board_numbers *)
Lemma cal_board_numbers_ok row column b :
  rect row column b -> (0 < row)%nat ->
  (forall p, inb row column p -> cell b p = 0 \/ cell b p = -1) ->
  exists b', cal_board_numbers b = Ok b' /\ laid row column (is_mine b) b'.
Proof.
  intros Hr Hrow H01. unfold cal_board_numbers.
  rewrite (ncolsR_ok Hr Hrow), (nrows_ok Hr). simpl.
  change (grid row column) with (positions row column).
  destruct (@foldM_inv board pos
    (fun b '(x, y) => let* v := get b x y in if v =? -1 then bump row column b x y else Ok b)
    (fun done b' => rect row column b' /\ forall q, inb row column q ->
        cell b' q = if is_mine b q then -1
                    else Z.of_nat (adj_count row column (fun x => is_mine b x && inl x done) q))
    (positions row column) b) as (b' & E & HP).
  - split; [exact Hr|]. intros q Hq. unfold adj_count. rewrite count_zero.
    + unfold is_mine. destruct (H01 q Hq) as [->| ->]; reflexivity.
    + intros x _. simpl. now rewrite !andb_false_r.
  - intros done [x y] rest s Hs [Hrs Hcs].
    assert (Hin : inb row column (x, y)).
    { apply in_positions. rewrite Hs. apply in_or_app; right; left; auto. }
    assert (Hnot : inl (x, y) done = false).
    { destruct (inl_spec (x, y) done) as [Hd|]; auto. exfalso.
      pose proof (NoDup_positions row column) as Hnd. rewrite Hs in Hnd.
      apply NoDup_remove_2 in Hnd. apply Hnd. apply in_or_app; auto. }
    rewrite (get_ok Hrs Hin). cbn [bind].
    assert (Hinl : forall q, inl q (done ++ [(x, y)]) = inl q done || posb (x, y) q).
    { intros q. unfold inl. rewrite existsb_app. simpl. now rewrite orb_false_r, (posb_sym q). }
    assert (Hv : (cell s (x, y) =? -1) = is_mine b (x, y)).
    { rewrite (Hcs _ Hin). destruct (is_mine b (x, y)); [reflexivity|]. apply Z.eqb_neq. lia. }
    rewrite Hv. destruct (is_mine b (x, y)) eqn:Em.
    + destruct (bump_ok x y Hrs) as (s' & E & Hrs' & Hcs').
      exists s'. split; [exact E|]. split; [exact Hrs'|]. intros q Hq.
      rewrite (Hcs' q Hq), (Hcs q Hq). destruct (is_mine b q) eqn:Eq.
      * now rewrite andb_false_r.
      * rewrite (proj2 (Z.leb_le 0 _) (Nat2Z.is_nonneg _)), andb_true_r.
        rewrite (@adj_count_ext _ _ (fun z => is_mine b z && inl z (done ++ [(x, y)]))
                   (fun z => (is_mine b z && inl z done) || posb (x, y) z)).
        2:{ intros z Hz. rewrite Hinl. destruct (posb_spec (x, y) z) as [<-|Hn].
            - now rewrite Em, !orb_true_r.
            - now rewrite !orb_false_r. }
        rewrite (@adj_count_add row column _ (x, y) q) by (auto; now rewrite Em, Hnot).
        rewrite adjb_sym. unfold adjb. destruct (posb_spec (x, y) q) as [<-|Hn]; [congruence|].
        simpl. destruct (nearb (x, y) q); lia.
    + exists s. split; [reflexivity|]. split; [exact Hrs|]. intros q Hq. rewrite (Hcs q Hq).
      destruct (is_mine b q); [reflexivity|]. f_equal. apply adj_count_ext.
      intros z Hz. rewrite Hinl. destruct (posb_spec (x, y) z) as [<-|Hn].
      * now rewrite Em.
      * now rewrite orb_false_r.
  - exists b'. split; [exact E|]. destruct HP as [Hr' Hc']. split; [exact Hr'|].
    intros p Hp. rewrite (Hc' p Hp). destruct (is_mine b p); [reflexivity|].
    f_equal. apply adj_count_ext. intros q Hq.
    destruct (inl_spec q (positions row column)) as [|Hn]; [now rewrite andb_true_r|].
    exfalso. apply Hn. now apply in_positions.
Qed.

(** ** laymine_op *)
Section Skip.
Variable sk : nat -> bool.
Definition skipc (i : nat) : nat := count sk (seq 0 i).
Lemma skipc_S i : skipc (S i) = (skipc i + if sk i then 1 else 0)%nat.
Proof. unfold skipc. rewrite seq_S, count_app, count_cons, count_nil. simpl. lia. Qed.
Lemma skipc_le i : (skipc i <= i)%nat.
Proof. unfold skipc. pose proof (count_le sk (seq 0 i)). now rewrite seq_length in H. Qed.
Lemma skipc_rank_mono i n : (i <= n)%nat -> (i - skipc i <= n - skipc n)%nat.
Proof.
  induction 1 as [|n H IH]; [lia|]. rewrite skipc_S. pose proof (skipc_le n). destruct (sk n); lia.
Qed.
Definition spread (dim : list Z) (n : nat) : list Z :=
  map (fun i => if sk i then 0 else nth (i - skipc i) dim 0) (seq 0 n).
Lemma nth_spread dim n i : (i < n)%nat ->
  nth i (spread dim n) 0 = if sk i then 0 else nth (i - skipc i) dim 0.
Proof.
  intros H. unfold spread. now rewrite nth_map_seq.
Qed.
Lemma count_spread dim n : (n - skipc n <= length dim)%nat ->
  count (fun v => v <? 0) (spread dim n) = count (fun v => v <? 0) (firstn (n - skipc n) dim).
Proof.
  unfold spread. rewrite count_map. induction n as [|n IH]; intros H; [reflexivity|].
  rewrite seq_S, count_app, count_cons, count_nil. cbn [Nat.add].
  rewrite skipc_S in *. pose proof (skipc_le n) as Hle.
  destruct (sk n) eqn:E.
  - rewrite IH by lia. replace (S n - (skipc n + 1))%nat with (n - skipc n)%nat by lia. simpl. lia.
  - rewrite IH by lia. replace (S n - (skipc n + 0))%nat with (S (n - skipc n)) by lia.
    set (m := (n - skipc n)%nat) in *.
    rewrite (@firstn_S_nth _ 0) by lia. rewrite count_app, count_cons, count_nil. lia.
Qed.
End Skip.

Definition op_skip (row X0 Y0 i : nat) : bool := nearb (X0, Y0) (unidx row i).

Lemma zone_prod_count row column X0 Y0 :
  count (nearb (X0, Y0)) (positions row column) = length (zone row column X0 Y0).
Proof.
  replace (length (zone row column X0 Y0)) with (count (fun _ => true) (zone row column X0 Y0)).
  2:{ unfold count. f_equal. induction (zone row column X0 Y0) as [|a l IHl]; simpl; f_equal; auto. }
  apply count_same; auto using NoDup_positions, NoDup_zone.
  intros q. rewrite in_positions, in_zone. destruct (nearb_spec (X0, Y0) q); intuition; discriminate.
Qed.

Lemma length_zone row column i j :
  length (zone row column i j) =
  ((Nat.min row (i + 2) - (Nat.max 1 i - 1)) * (Nat.min column (j + 2) - (Nat.max 1 j - 1)))%nat.
Proof. unfold zone, rng. now rewrite prod_length, !seq_length. Qed.

Lemma op_skip_total row column X0 Y0 :
  skipc (op_skip row X0 Y0) (row * column) = length (zone row column X0 Y0).
Proof.
  unfold skipc. rewrite <- (count_idx row column (op_skip row X0 Y0)).
  rewrite <- zone_prod_count. apply count_ext. intros p Hp. apply in_positions in Hp.
  unfold op_skip. rewrite unidx_idx; auto. apply Hp.
Qed.

Lemma area_op_ok row column X0 Y0 :
  (2 <= row)%nat -> (2 <= column)%nat -> inb row column (X0, Y0) ->
  area_op row column X0 Y0 = Ok (length (zone row column X0 Y0)).
Proof.
  intros Hr Hc [Hx Hy]; cbn [fst snd] in *. unfold area_op. rewrite !usub_ok by lia. cbn [bind].
  f_equal. rewrite length_zone.
  destruct (Nat.eqb_spec X0 0), (Nat.eqb_spec Y0 0), (Nat.eqb_spec X0 (row - 1)), (Nat.eqb_spec Y0 (column - 1));
    try (exfalso; lia); simpl andb; simpl orb; cbv iota;
    repeat match goal with
    | |- context [(Nat.min ?a (?i + 2) - (Nat.max 1 ?i - 1))%nat] =>
        let k := fresh "k" in remember (Nat.min a (i + 2) - (Nat.max 1 i - 1))%nat as k
    end;
    repeat match goal with H : ?k = _ |- _ =>
      match k with Nat.min _ _ => fail 1 | _ => idtac end;
      let E2 := fresh in let E3 := fresh in
      first [ assert (E2 : k = 2%nat) by lia; rewrite E2; clear H
            | assert (E3 : k = 3%nat) by lia; rewrite E3; clear H ] end; reflexivity.
Qed.

Lemma foldM_prefix {S A} (f : S -> A -> R S) l1 l2 s s' :
  foldM f (l1 ++ l2) s = Ok s' -> exists s1, foldM f l1 s = Ok s1 /\ foldM f l2 s1 = Ok s'.
Proof. rewrite foldM_app. intros H. apply bind_ok in H. exact H. Qed.

Lemma seq_split n done x rest : seq 0 n = done ++ x :: rest -> x = length done /\ (x < n)%nat.
Proof.
  intros Hs.
  assert (Hlen : length (seq 0 n) = length (done ++ x :: rest)) by now rewrite Hs.
  rewrite seq_length, app_length in Hlen. simpl in Hlen.
  pose proof (f_equal (fun l => nth (length done) l 0%nat) Hs) as Hn. simpl in Hn.
  rewrite seq_nth in Hn by lia. rewrite app_nth2, Nat.sub_diag in Hn by lia. simpl in Hn. lia.
Qed.

Lemma laymine_op_laid shuf row column minenum X0 Y0 :
  (2 <= row)%nat -> (2 <= column)%nat -> inb row column (X0, Y0) ->
  let z := length (zone row column X0 Y0) in
  (z <= row * column)%nat -> (minenum <= row * column - z)%nat ->
  length (shuf (mines01 (row * column - z - minenum) minenum)) = (row * column - z)%nat ->
  let dim := shuf (mines01 (row * column - z - minenum) minenum) in
  exists b, laymine_op shuf row column minenum X0 Y0 = Ok b /\
    laid row column
      (fun q => nth (idx row q) (spread (op_skip row X0 Y0) dim (row * column)) 0 <? 0) b.
Proof.
  intros Hr2 Hc2 Hin. cbv zeta. set (z := length (zone row column X0 Y0)). intros Hz Hm Hlen.
  set (dim := shuf _) in *. set (sk := op_skip row X0 Y0). set (d2 := spread sk dim (row * column)).
  unfold laymine_op. rewrite area_op_ok by auto. cbn [bind]. fold z.
  rewrite usub_ok by lia. cbn [bind]. rewrite usub_ok by lia. cbn [bind].
  change (repeat 0 (row * column - z - minenum) ++ repeat (-1) minenum)
    with (mines01 (row * column - z - minenum) minenum). fold dim.
  replace (row * column - z + z)%nat with (row * column)%nat by lia.
  destruct (@lay_dim row column d2) as (b & E & HL).
  { unfold d2, spread. now rewrite map_length, seq_length. }
  unfold rng in *. rewrite Nat.sub_0_r in *.
  match type of E with foldM ?f _ _ = _ => set (lay := f) in * end.
  match goal with |- context [foldM ?f (seq 0 (row * column)) (mkboard row column 0, 0%nat)] =>
    destruct (@foldM_inv (board * nat) nat f
      (fun done '(b', s) => s = skipc sk (length done) /\ foldM lay done (mkboard row column 0) = Ok b')
      (seq 0 (row * column)) (mkboard row column 0, 0%nat)) as ([b' s'] & E' & Hs' & HP) end.
  - split; reflexivity.
  - intros done i rest [b' s] Hsq [Hs HP].
    destruct (seq_split Hsq) as [Hi Hlt].
    pose proof E as E1. rewrite Hsq in E1. apply foldM_prefix in E1 as (b1 & E1 & E2).
    rewrite HP in E1. inversion E1; subst b1. clear E1.
    cbn [foldM] in E2. apply bind_ok in E2 as (b2 & E2 & _).
    assert (Hsk : ((i mod row <=? X0 + 1) && (X0 <=? i mod row + 1) && (i / row <=? Y0 + 1) && (Y0 <=? i / row + 1))%nat = sk i).
    { unfold sk, op_skip, nearb, unidx; cbn [fst snd].
      apply eq_true_iff_eq; rewrite !andb_true_iff, !Nat.leb_le; tauto. }
    rewrite Hsk. rewrite foldM_app, HP. cbn [bind foldM]. rewrite app_length, Nat.add_1_r, skipc_S.
    assert (Hd2 : vget d2 i = Ok (if sk i then 0 else nth (i - skipc sk i) dim 0)).
    { rewrite (@vget_ok _ d2 i 0) by (unfold d2, spread; now rewrite map_length, seq_length).
      unfold d2. now rewrite nth_spread. }
    unfold lay in E2 |- *. rewrite Hd2 in *. cbn [bind] in *. rewrite <- Hi in *.
    destruct (sk i) eqn:Esk.
    + exists (b', Datatypes.S s). split; [reflexivity|]. split; [lia|]. reflexivity.
    + pose proof (skipc_le sk i). rewrite Hs. rewrite usub_ok by lia. cbn [bind].
      assert (Hidx : (i - skipc sk i < length dim)%nat).
      { pose proof (@skipc_rank_mono sk (Datatypes.S i) (row * column)) as Hm'.
        rewrite skipc_S, Esk in Hm'. unfold sk in Hm' at 2. rewrite op_skip_total in Hm'.
        fold z in Hm'. lia. }
      rewrite (@vget_ok _ dim _ 0) by auto. cbn [bind].
      destruct (nth (i - skipc sk i) dim 0 <? 0).
      * cbv zeta in E2. apply bind_ok in E2 as (b3 & E3 & E4). rewrite E3. cbn [bind]. rewrite E4. cbn [bind].
        exists (b2, skipc sk i). split; [reflexivity|]. split; [lia|]. reflexivity.
      * exists (b', skipc sk i). split; [reflexivity|]. split; [lia|]. reflexivity.
  - rewrite E'. cbn [bind fst]. rewrite HP in E. inversion E; subst b'.
    exists b. split; [reflexivity|]. exact HL.
Qed.

Lemma laymine_op_ok shuf row column minenum X0 Y0 :
  (forall l, Permutation l (shuf l)) ->
  (2 <= row)%nat -> (2 <= column)%nat -> inb row column (X0, Y0) ->
  (minenum + count (nearb (X0, Y0)) (positions row column) <= row * column)%nat ->
  exists b, laymine_op shuf row column minenum X0 Y0 = Ok b /\
    legal_board row column b /\ mine_count row column b = minenum /\
    (forall q, inb row column q -> near (X0, Y0) q -> is_mine b q = false) /\
    cell b (X0, Y0) = 0.
Proof.
  intros Hs Hr2 Hc2 Hin Hm. rewrite zone_prod_count in Hm.
  set (z := length (zone row column X0 Y0)) in *.
  pose proof (Permutation_length (Hs (mines01 (row * column - z - minenum) minenum))) as Hlen.
  rewrite mines01_length in Hlen.
  destruct (@laymine_op_laid shuf row column minenum X0 Y0 Hr2 Hc2 Hin) as (b & E & HL);
    fold z; try lia.
  fold z in HL. set (dim := shuf _) in *.
  destruct (laid_legal HL) as [Hleg Hmine].
  assert (Hsafe : forall q, inb row column q -> near (X0, Y0) q -> is_mine b q = false).
  { intros q Hq Hn. rewrite Hmine by auto. pose proof (idx_lt Hq).
    rewrite nth_spread by auto. unfold op_skip. rewrite unidx_idx by apply Hq.
    destruct (nearb_spec (X0, Y0) q); [reflexivity|contradiction]. }
  exists b. split; [exact E|]. split; [exact Hleg|]. split; [|split; [exact Hsafe|]].
  - unfold mine_count.
    rewrite (count_ext (g := fun q => nth (idx row q) (spread (op_skip row X0 Y0) dim (row * column)) 0 <? 0))
      by (intros q Hq; apply Hmine, in_positions, Hq).
    rewrite (count_idx row column (fun i => nth i (spread (op_skip row X0 Y0) dim (row * column)) 0 <? 0)).
    pose proof (count_nth 0 (fun v => v <? 0) (spread (op_skip row X0 Y0) dim (row * column))) as Hcn.
    assert (Hl2 : length (spread (op_skip row X0 Y0) dim (row * column)) = (row * column)%nat)
      by (unfold spread; now rewrite map_length, seq_length).
    rewrite Hl2 in Hcn. rewrite Hcn.
    rewrite count_spread; rewrite op_skip_total; fold z; [|lia].
    rewrite firstn_all2 by lia.
    unfold dim. rewrite <- (count_permutation _ (Hs (mines01 _ _))). apply mines01_count.
  - destruct Hleg as [_ Hc]. destruct (Hc _ Hin) as [Hc1|Hc1].
    + pose proof (Hsafe _ Hin (near_refl _)) as Hx. unfold is_mine in Hx. rewrite Hc1 in Hx. discriminate.
    + rewrite Hc1. unfold adj_count. rewrite count_zero; [reflexivity|].
      intros q Hq. apply in_positions in Hq. unfold adjb.
      destruct (nearb_spec (X0, Y0) q) as [Hn|]; [|now rewrite andb_false_r].
      rewrite (Hsafe q Hq Hn). now rewrite andb_false_r.
Qed.

(** ** shuffle_ *)
Lemma get_random_int_ok limit ws id ws' :
  0 < limit -> Forall (fun t => 0 <= t) ws -> get_random_int limit ws = Ok (id, ws') ->
  0 <= id < limit /\ Forall (fun t => 0 <= t) ws'.
Proof.
  intros Hl Hws. revert id ws'. induction Hws as [|t ws Ht Hws IH]; intros id ws' H; simpl in H.
  - destruct (limit =? 0) eqn:E; [lia|discriminate].
  - destruct (limit =? 0) eqn:E; [lia|].
    destruct (t <? 4294967295 / limit * limit) eqn:E2.
    + inversion H; subst. split; auto. apply Z.mod_pos_bound; auto.
    + apply IH; auto.
Qed.
Lemma get_random_int_no_panic limit ws e : get_random_int limit ws <> Panic /\ get_random_int limit ws <> Err e.
Proof.
  induction ws as [|t ws IH]; simpl; destruct (limit =? 0); try (split; discriminate).
  destruct (t <? _); [split; discriminate|exact IH].
Qed.

Lemma count_upd_nth (f : Z -> bool) l i x : (i < length l)%nat ->
  (count f (upd_nth l i x) + (if f (nth i l 0%Z) then 1 else 0) =
   count f l + if f x then 1 else 0)%nat.
Proof.
  revert i; induction l as [|h l IH]; intros [|i] H; simpl in *; try lia; rewrite !count_cons.
  - destruct (f h), (f x); lia.
  - specialize (IH i). assert (i < length l)%nat by lia. specialize (IH H0). lia.
Qed.

Lemma permutation_of_counts (l l' : list Z) :
  (forall y, count (Z.eqb y) l = count (Z.eqb y) l') -> Permutation l l'.
Proof.
  intros H. apply (Permutation_count_occ Z.eq_dec). intros y.
  assert (G : forall m, count_occ Z.eq_dec m y = count (Z.eqb y) m).
  { induction m as [|h m IH]; simpl; auto. rewrite count_cons.
    destruct (Z.eq_dec h y), (Z.eqb_spec y h); try congruence; lia. }
  now rewrite !G.
Qed.

Lemma swap_permutation (v : list Z) i j : (i < length v)%nat -> (j < length v)%nat ->
  Permutation v (upd_nth (upd_nth v i (nth j v 0)) j (nth i v 0)).
Proof.
  intros Hi Hj. apply permutation_of_counts. intros y.
  pose proof (count_upd_nth (Z.eqb y) (nth j v 0) Hi) as H1.
  assert (Hj' : (j < length (upd_nth v i (nth j v 0%Z)))%nat) by now rewrite length_upd_nth.
  pose proof (count_upd_nth (Z.eqb y) (nth i v 0) Hj') as H2.
  destruct (Nat.eq_dec i j) as [->|Hn].
  - rewrite nth_upd_nth_eq in H2 by auto. destruct (y =? nth j v 0); lia.
  - rewrite nth_upd_nth_neq in H2 by auto. destruct (y =? nth j v 0), (y =? nth i v 0); lia.
Qed.

Lemma shuffle_ok l ws : Forall (fun t => 0 <= t) ws ->
  shuffle_ l ws = OutOfFuel \/ exists l' ws', shuffle_ l ws = Ok (l', ws') /\ Permutation l l'.
Proof.
  intros Hws. unfold shuffle_.
  assert (G : forall idxs v ws, Forall (fun t => 0 <= t) ws -> Permutation l v ->
     (forall i, In i idxs -> (i < length l)%nat) ->
     let r := foldM (fun '(v, ws) i =>
           let* r := get_random_int (Z.of_nat i + 1) ws in
           let '(id, ws) := r in
           let id := Z.to_nat id in
           let* t := vget v i in
           let* u := vget v id in
           let* v := vset v i u in
           let* v := vset v id t in
           Ok (v, ws)) idxs (v, ws) in
     r = OutOfFuel \/ exists l' ws', r = Ok (l', ws') /\ Permutation l l').
  { induction idxs as [|i idxs IH]; intros v ws0 H0 Hp Hi; cbn zeta.
    - right. exists v, ws0. auto.
    - cbn [foldM]. destruct (get_random_int (Z.of_nat i + 1) ws0) as [[id ws1]|e| |] eqn:E.
      + apply get_random_int_ok in E as [Hid H1]; auto; [|lia].
        assert (Hlen : length v = length l) by (symmetry; now apply Permutation_length).
        assert (Hil : (i < length v)%nat) by (rewrite Hlen; apply Hi; left; auto).
        assert (Hidl : (Z.to_nat id < length v)%nat) by lia.
        cbn [bind]. rewrite (@vget_ok _ v i 0), (@vget_ok _ v (Z.to_nat id) 0) by auto. cbn [bind].
        rewrite vset_ok by auto. cbn [bind]. rewrite vset_ok by (now rewrite length_upd_nth). cbn [bind].
        apply IH; auto.
        * eapply Permutation_trans; [exact Hp|]. apply swap_permutation; auto.
        * intros k Hk. apply Hi. right; auto.
      + exfalso. apply (@get_random_int_no_panic (Z.of_nat i + 1) ws0 e) in E; auto.
      + exfalso. apply (@get_random_int_no_panic (Z.of_nat i + 1) ws0 0%nat) in E; auto.
      + left; reflexivity. }
  apply G; auto. intros i Hi. apply in_rng in Hi. lia.
Qed.

(** ** laymine_op on one-cell-wide boards never succeeds *)
Lemma foldM_inv_prefix {S A} (f : S -> A -> R S) (P : list A -> S -> Prop) l s0 s1 :
  P [] s0 ->
  (forall done x rest s s', l = done ++ x :: rest -> P done s -> f s x = Ok s' -> P (done ++ [x]) s') ->
  foldM f l s0 = Ok s1 -> P l s1.
Proof.
  intros H0 Hs.
  assert (G : forall rest done s, l = done ++ rest -> P done s -> foldM f rest s = Ok s1 -> P l s1).
  { induction rest as [|x rest IH]; intros done s Hl HP Hf; simpl in Hf.
    - inversion Hf; subst. now rewrite app_nil_r.
    - apply bind_ok in Hf as (s' & Hx & Hf). apply (IH (done ++ [x]) s'); auto.
      + now rewrite <- app_assoc.
      + eapply Hs; eauto. }
  intros Hf. apply (G l [] s0); auto.
Qed.

Lemma vget_inv {A} (l : list A) i v : vget l i = Ok v -> (i < length l)%nat.
Proof.
  unfold vget. destruct (nth_error l i) eqn:E; [|discriminate]. intros _.
  apply nth_error_Some. congruence.
Qed.
Lemma usub_inv a b c : usub a b = Ok c -> (b <= a)%nat /\ c = (a - b)%nat.
Proof. unfold usub. destruct (Nat.leb_spec b a); intros H1; inversion H1; auto. Qed.

Lemma width1 i : (Nat.min 1 (i + 2) - (Nat.max 1 i - 1) <= 1)%nat.
Proof. lia. Qed.
Lemma width3 a i : (Nat.min a (i + 2) - (Nat.max 1 i - 1) <= 3)%nat.
Proof. lia. Qed.
Lemma width2 a i : (i < a)%nat -> (i = 0 \/ i = a - 1)%nat -> (Nat.min a (i + 2) - (Nat.max 1 i - 1) <= 2)%nat.
Proof. lia. Qed.

Lemma thin_area row column X0 Y0 aop :
  inb row column (X0, Y0) -> (row = 1 \/ column = 1)%nat ->
  area_op row column X0 Y0 = Ok aop -> (length (zone row column X0 Y0) < aop)%nat.
Proof.
  intros [Hx Hy] Hthin Ha; cbn [fst snd] in *. unfold area_op in Ha.
  rewrite !usub_ok in Ha by lia. cbn [bind] in Ha. injection Ha as Ha'.
  assert (Hsz : (aop = 4 /\ (X0 = 0 \/ X0 = row - 1) /\ (Y0 = 0 \/ Y0 = column - 1) \/ aop = 6)%nat).
  { revert Ha'.
    destruct (Nat.eqb_spec X0 0), (Nat.eqb_spec Y0 0), (Nat.eqb_spec X0 (row - 1)), (Nat.eqb_spec Y0 (column - 1));
      simpl andb; simpl orb; cbv iota; intros <-; lia. }
  clear Ha'. rewrite length_zone.
  pose proof (width3 row X0) as W1. pose proof (width3 column Y0) as W2.
  pose proof (@width2 row X0 Hx) as W3. pose proof (@width2 column Y0 Hy) as W4.
  pose proof (width1 X0) as W5. pose proof (width1 Y0) as W6.
  destruct Hthin as [Ht|Ht]; rewrite Ht in *.
  - revert W1 W2 W3 W4 W5. 
    generalize (Nat.min 1 (X0 + 2) - (Nat.max 1 X0 - 1))%nat (Nat.min column (Y0 + 2) - (Nat.max 1 Y0 - 1))%nat.
    intros zr zc W1 W2 W3 W4 W5. destruct Hsz as [(-> & Hc1 & Hc2)| ->].
    + specialize (W4 Hc2). pose proof (Nat.mul_le_mono _ _ _ _ W5 W4). lia.
    + pose proof (Nat.mul_le_mono _ _ _ _ W5 W2). lia.
  - revert W1 W2 W3 W4 W6.
    generalize (Nat.min row (X0 + 2) - (Nat.max 1 X0 - 1))%nat (Nat.min 1 (Y0 + 2) - (Nat.max 1 Y0 - 1))%nat.
    intros zr zc W1 W2 W3 W4 W6. destruct Hsz as [(-> & Hc1 & Hc2)| ->].
    + specialize (W3 Hc1). pose proof (Nat.mul_le_mono _ _ _ _ W3 W6). lia.
    + pose proof (Nat.mul_le_mono _ _ _ _ W1 W6). lia.
Qed.

Lemma laymine_op_thin shuf row column minenum X0 Y0 b :
  (forall l, length (shuf l) = length l) ->
  inb row column (X0, Y0) -> (row = 1 \/ column = 1)%nat ->
  laymine_op shuf row column minenum X0 Y0 <> Ok b.
Proof.
  intros Hs Hin Hthin H. unfold laymine_op in H.
  apply bind_ok in H as (aop & Ha & H). apply bind_ok in H as (area & Har & H).
  apply bind_ok in H as (n0 & Hn & H). apply bind_ok in H as ([b' s'] & Hf & _).
  apply usub_inv in Har as [Har1 ->]. apply usub_inv in Hn as [Hn1 ->].
  remember (shuf (repeat 0 (row * column - aop - minenum) ++ repeat (-1) minenum)) as dim eqn:Ed.
  assert (Hdim : length dim = (row * column - aop)%nat).
  { rewrite Ed, Hs, app_length, !repeat_length. lia. }
  replace (row * column - aop + aop)%nat with (row * column)%nat in Hf by lia.
  unfold rng in Hf. rewrite Nat.sub_0_r in Hf.
  pose (sk := op_skip row X0 Y0).
  apply (@foldM_inv_prefix _ _ _
    (fun done '(_, s) => s = skipc sk (length done) /\ (length done - s <= length dim)%nat)) in Hf.
  - destruct Hf as [E1 E2]. rewrite seq_length in *. subst s'.
    unfold sk in E2. rewrite op_skip_total, Hdim in E2.
    pose proof (thin_area Hin Hthin Ha). lia.
  - split; [reflexivity|simpl; lia].
  - intros done i rest [b1 s1] [b2 s2] Hsq [Hs1 Hl1] Hst.
    destruct (seq_split Hsq) as [Hi Hlt].
    assert (Hsk : ((i mod row <=? X0 + 1) && (X0 <=? i mod row + 1) && (i / row <=? Y0 + 1) && (Y0 <=? i / row + 1))%nat = sk i).
    { unfold sk, op_skip, nearb, unidx; cbn [fst snd].
      apply eq_true_iff_eq; rewrite !andb_true_iff, !Nat.leb_le; tauto. }
    rewrite Hsk in Hst. rewrite app_length, Nat.add_1_r, skipc_S. rewrite <- Hi in *.
    pose proof (skipc_le sk i).
    destruct (sk i).
    + inversion Hst; subst. lia.
    + apply bind_ok in Hst as (id & Hid & Hst). apply usub_inv in Hid as [_ ->].
      apply bind_ok in Hst as (v & Hv & Hst). apply vget_inv in Hv.
      assert (s2 = s1).
      { destruct (v <? 0); [|inversion Hst; auto].
        apply bind_ok in Hst as (b3 & _ & Hst). apply bind_ok in Hst as (b4 & _ & Hst). now inversion Hst. }
      subst. lia.
Qed.

(** ** laying is a bijection between arrangements and boards *)
Lemma legal_ext row column b1 b2 :
  legal_board row column b1 -> legal_board row column b2 ->
  (forall p, inb row column p -> is_mine b1 p = is_mine b2 p) -> b1 = b2.
Proof.
  intros [R1 C1] [R2 C2] H. apply (@board_ext row column); auto.
  intros p Hp. pose proof (H p Hp) as Hm. unfold is_mine in Hm.
  destruct (C1 p Hp) as [E1|E1], (C2 p Hp) as [E2|E2].
  - congruence.
  - rewrite E1 in Hm. simpl in Hm. symmetry in Hm. apply Z.eqb_eq in Hm. congruence.
  - rewrite E2 in Hm. simpl in Hm. apply Z.eqb_eq in Hm. congruence.
  - rewrite E1, E2. f_equal. apply adj_count_ext; auto.
Qed.

Lemma perm_mines01 z m (l : list Z) :
  Permutation (mines01 z m) l <->
  length l = (z + m)%nat /\ (forall v, In v l -> v = 0 \/ v = -1) /\ count (fun v => v <? 0) l = m.
Proof.
  split.
  - intros H. split; [|split].
    + rewrite <- (Permutation_length H). apply mines01_length.
    + intros v Hv. apply (Permutation_in _ (Permutation_sym H)) in Hv.
      unfold mines01 in Hv. apply in_app_or in Hv as [Hv|Hv]; apply repeat_spec in Hv; auto.
    + rewrite <- (count_permutation _ H). apply mines01_count.
  - intros (Hl & Hv & Hc). apply permutation_of_counts. intros y.
    assert (Hn : forall l : list Z, (forall v, In v l -> v = 0 \/ v = -1) ->
      (count (Z.eqb 0) l + count (fun v => (v <? 0)%Z) l = length l)%nat /\
      count (Z.eqb (-1)) l = count (fun v => (v <? 0)%Z) l /\
      (y <> 0%Z -> y <> (-1)%Z -> count (Z.eqb y) l = 0%nat)).
    { induction l0 as [|x l0 IH]; intros Hx; [auto|].
      destruct IH as (I1 & I2 & I3). { intros; apply Hx; right; auto. }
      rewrite !count_cons. destruct (Hx x (or_introl eq_refl)) as [-> | ->]; simpl; repeat split; try lia;
      intros; destruct (Z.eqb_spec y 0), (Z.eqb_spec y (-1)); try congruence; auto. }
    destruct (Hn l Hv) as (L1 & L2 & L3).
    assert (Hv0 : forall v, In v (mines01 z m) -> v = 0 \/ v = -1).
    { intros v Hv'. unfold mines01 in Hv'. apply in_app_or in Hv' as [Hv'|Hv']; apply repeat_spec in Hv'; auto. }
    destruct (Hn _ Hv0) as (M1 & M2 & M3).
    rewrite mines01_count, mines01_length in *.
    destruct (Z.eq_dec y 0) as [->|Hy0]; [lia|].
    destruct (Z.eq_dec y (-1)) as [->|Hy1]; [lia|].
    rewrite L3, M3; auto.
Qed.

Lemma insert_inj (p : nat) (a b : list Z) :
  length a = length b -> firstn p a ++ 0 :: skipn p a = firstn p b ++ 0 :: skipn p b -> a = b.
Proof.
  intros Hl H. rewrite <- (firstn_skipn p a), <- (firstn_skipn p b).
  assert (E : length (firstn p a) = length (firstn p b)) by (rewrite !firstn_length; lia).
  revert H E. generalize (firstn p a) (firstn p b) (skipn p a) (skipn p b).
  induction l as [|x l IH]; intros [|y l0] s1 s2 H E; simpl in *; try lia.
  - congruence.
  - inversion H; subst. f_equal. apply IH; auto.
Qed.

Lemma list01_ext (a b : list Z) :
  length a = length b ->
  (forall v, In v a -> v = 0 \/ v = -1) -> (forall v, In v b -> v = 0 \/ v = -1) ->
  (forall i, (i < length a)%nat -> (nth i a 0 <? 0) = (nth i b 0 <? 0)) -> a = b.
Proof.
  intros Hl Ha Hb H. apply nth_ext with (d := 0) (d' := 0); auto.
  intros i Hi. specialize (H i Hi).
  destruct (Ha (nth i a 0)) as [Ea|Ea]; [apply nth_In; auto| |];
  destruct (Hb (nth i b 0)) as [Eb|Eb]; try (apply nth_In; lia); rewrite Ea, Eb in *; auto; discriminate.
Qed.

Definition minelist (row column : nat) (b : board) : list Z :=
  map (fun i => if is_mine b (unidx row i) then -1 else 0) (seq 0 (row * column)).

Lemma laymine_bijective row column minenum X0 Y0 b :
  inb row column (X0, Y0) -> (minenum <= row * column - 1)%nat ->
  legal_board row column b -> mine_count row column b = minenum -> is_mine b (X0, Y0) = false ->
  exists! dim, Permutation (mines01 (row * column - 1 - minenum) minenum) dim /\
    laymine (fun _ => dim) row column minenum X0 Y0 = Ok b.
Proof.
  intros Hin Hm Hleg Hcnt Hstart.
  pose proof (idx_lt Hin) as Hp. set (p := idx row (X0, Y0)) in *.
  set (ml := minelist row column b).
  assert (Hml : length ml = (row * column)%nat) by (unfold ml, minelist; now rewrite map_length, seq_length).
  assert (Hnth : forall q, inb row column q -> (nth (idx row q) ml 0 <? 0) = is_mine b q).
  { intros q Hq. unfold ml, minelist. rewrite nth_map_seq by now apply idx_lt.
    rewrite unidx_idx by apply Hq. destruct (is_mine b q); reflexivity. }
  assert (Hml01 : forall v, In v ml -> v = 0 \/ v = -1).
  { intros v Hv. unfold ml, minelist in Hv. apply in_map_iff in Hv as (i & <- & _).
    destruct (is_mine b (unidx row i)); auto. }
  assert (Hmlp : nth p ml 0 = 0).
  { assert (Hx := Hnth _ Hin). fold p in Hx. rewrite Hstart in Hx.
    destruct (Hml01 (nth p ml 0)) as [E|E]; [apply nth_In; lia|auto|]. rewrite E in Hx. discriminate. }
  assert (Hsplit : ml = firstn p ml ++ 0 :: skipn (S p) ml).
  { rewrite <- (firstn_skipn p ml) at 1. f_equal.
    rewrite (@skipn_nth_cons _ 0) by lia. now rewrite Hmlp. }
  set (dim := firstn p ml ++ skipn (S p) ml).
  assert (Hf : firstn p dim = firstn p ml).
  { unfold dim. rewrite firstn_app. rewrite firstn_length, Nat.min_l by lia.
    rewrite Nat.sub_diag. simpl. rewrite app_nil_r. rewrite firstn_firstn. f_equal. lia. }
  assert (Hk : skipn p dim = skipn (S p) ml).
  { unfold dim. rewrite skipn_app. rewrite firstn_length, Nat.min_l by lia.
    rewrite Nat.sub_diag. rewrite skipn_all2 by (rewrite firstn_length; lia). reflexivity. }
  assert (Hcml : count (fun v => v <? 0) ml = minenum).
  { rewrite <- Hcnt. unfold mine_count.
    rewrite (count_ext (g := fun q => nth (idx row q) ml 0 <? 0))
      by (intros q Hq; symmetry; apply Hnth, in_positions, Hq).
    rewrite (count_idx row column (fun i => nth i ml 0 <? 0)).
    rewrite <- Hml. symmetry. apply (count_nth 0 (fun v => v <? 0)). }
  assert (Hperm : Permutation (mines01 (row * column - 1 - minenum) minenum) dim).
  { apply perm_mines01. split; [|split].
    - unfold dim. rewrite app_length, firstn_length, skipn_length. lia.
    - intros v Hv. apply Hml01. rewrite Hsplit. unfold dim in Hv.
      apply in_app_or in Hv as [Hv|Hv]; apply in_or_app; [left|right; right]; auto.
    - rewrite <- Hcml.
      transitivity (count (fun v => v <? 0) (firstn p ml ++ 0 :: skipn (S p) ml)); [|now rewrite <- Hsplit].
      unfold dim. rewrite !count_app, count_cons. reflexivity. }
  assert (Hlen : length dim = (row * column - 1)%nat).
  { rewrite <- (Permutation_length Hperm), mines01_length. lia. }
  exists dim. split; [split; [exact Hperm|]|].
  - destruct (@laymine_dim (fun _ => dim) row column minenum X0 Y0 Hin Hm Hlen) as (b' & E & HL).
    fold p in HL. rewrite Hf, Hk, <- Hsplit in HL.
    rewrite E. f_equal. destruct (laid_legal HL) as [Hleg' Hm'].
    apply (@legal_ext row column); auto. intros q Hq. rewrite Hm' by auto. apply Hnth; auto.
  - intros dim' [Hperm' E'].
    assert (Hlen' : length dim' = (row * column - 1)%nat).
    { rewrite <- (Permutation_length Hperm'), mines01_length. lia. }
    destruct (@laymine_dim (fun _ => dim') row column minenum X0 Y0 Hin Hm Hlen') as (b' & E & HL).
    fold p in HL. rewrite E' in E. inversion E; subst b'.
    destruct (laid_legal HL) as [_ Hm'].
    apply insert_inj with (p := p); [lia|]. rewrite Hf, Hk, <- Hsplit.
    apply perm_mines01 in Hperm' as (_ & H01' & _).
    symmetry. apply list01_ext.
    + rewrite app_length; simpl. rewrite firstn_length, skipn_length. lia.
    + intros v Hv. apply in_app_or in Hv as [Hv|[Hv|Hv]]; auto; apply H01';
        [eapply firstn_In_sub|eapply skipn_In_sub]; eauto.
    + exact Hml01.
    + intros i Hi. rewrite app_length in Hi; simpl in Hi. rewrite firstn_length, skipn_length in Hi.
      assert (Hi' : (i < row * column)%nat) by lia.
      pose proof (unidx_inb Hi') as Hq. assert (Hrow : (0 < row)%nat) by nia.
      rewrite <- (@idx_unidx row i Hrow). rewrite Hnth by auto. rewrite <- Hm' by auto. reflexivity.
Qed.
