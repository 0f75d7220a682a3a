(** * Proofs about Refresh. *)
From Verif Require Import Base Spec BaseFacts LayMineProofs Metrics Refresh.
Open Scope Z_scope.

Definition covered (g : board) (q : pos) : bool := (cell g q =? 10) || (cell g q =? 12).
Lemma covered_iff g q : covered g q = true <-> cell g q = 10 \/ cell g q = 12.
Proof. unfold covered. rewrite orb_true_iff, !Z.eqb_eq. tauto. Qed.

Definition shown (b : board) (q : pos) : Z := if cell b q <? 0 then 15 else cell b q.

(** the push loop of the zero case *)
Lemma push_zone row column g i j st :
  rect row column g ->
  exists st', foldM (fun st '(m, n) =>
                          if negb (i =? m)%nat || negb (j =? n)%nat then
                            let* w := get g m n in
                            Ok (if (w =? 10) || (w =? 12) then (m, n) :: st else st)
                          else Ok st)
                        (zone row column i j) st = Ok (st' ++ st) /\
    (forall q, In q st' <-> inb row column q /\ adj (i, j) q /\ covered g q = true) /\
    (length st' <= 8)%nat.
Proof.
  intros Hg.
  match goal with |- context [foldM ?f _ _] =>
    destruct (@foldM_inv (list pos) pos f
      (fun done s => exists st', s = st' ++ st /\
        (forall q, In q st' <-> In q done /\ q <> (i, j) /\ covered g q = true) /\
        length st' = count (fun q => negb (posb (i, j) q) && covered g q) done)
      (zone row column i j) st) as (s & E & st' & -> & Hst & Hlen) end.
  - exists []. split; [reflexivity|]. split; [|reflexivity]. simpl; tauto.
  - intros done [m n] rest s Hl (st' & -> & Hst & Hlen).
    assert (Hmn : inb row column (m, n)).
    { apply (@in_zone row column i j). rewrite Hl. apply in_or_app; right; left; auto. }
    replace (negb (i =? m)%nat || negb (j =? n)%nat) with (negb (posb (i, j) (m, n)))
      by (unfold posb; cbn [fst snd]; now rewrite negb_andb).
    destruct (posb_spec (i, j) (m, n)) as [He|Hne]; simpl negb; cbv iota.
    + eexists; split; [reflexivity|]. exists st'. split; auto. split.
      * intros q. rewrite Hst, in_app_iff. simpl. split; [tauto|].
        intros ([H|[H|[]]] & H1 & H2); auto. subst q. congruence.
      * rewrite count_app, count_cons, count_nil, Hlen. rewrite <- He, posb_refl. simpl. lia.
    + rewrite (get_ok Hg Hmn). cbn [bind]. fold (covered g (m, n)).
      destruct (covered g (m, n)) eqn:Ec.
      * eexists; split; [reflexivity|]. exists ((m, n) :: st'). split; [reflexivity|]. split.
        -- intros q. simpl. rewrite Hst, in_app_iff. simpl. split.
           ++ intros [<-|H]; [|tauto]. split; auto.
           ++ intros ([H|[H|[]]] & H1 & H2); auto.
        -- rewrite count_app, count_cons, count_nil. simpl. rewrite Hlen, Ec.
           destruct (posb_spec (i, j) (m, n)); [congruence|]. simpl. lia.
      * eexists; split; [reflexivity|]. exists st'. split; [reflexivity|]. split.
        -- intros q. rewrite Hst, in_app_iff. simpl. split; [tauto|].
           intros ([H|[H|[]]] & H1 & H2); auto. subst q. congruence.
        -- rewrite count_app, count_cons, count_nil, Hlen, Ec, andb_false_r. lia.
  - exists st'. split; [exact E|]. split.
    + intros q. rewrite Hst, in_zone. unfold adj. split; intuition congruence.
    + rewrite Hlen. rewrite <- adj_count_zone. apply adj_count_le.
Qed.

Section Loop.
Variables (row column : nat) (b g0 : board) (clicks : list pos).
Hypothesis Hb : rect row column b.
Hypothesis Hg0 : rect row column g0.
Hypothesis Hb9 : forall p, inb row column p -> cell b p < 10.
Hypothesis Hclicks : forall p, In p clicks -> inb row column p.

Notation opens_ := (opens row column b g0 clicks).

Lemma opens_inb p : opens_ p -> inb row column p.
Proof. induction 1; auto. Qed.

(** loop invariant; [done] = cells popped so far *)
Record Inv (g : board) (stack : list pos) (loss : bool) (done : pos -> bool) : Prop := {
  inv_rect : rect row column g;
  inv_in : forall p, In p stack -> inb row column p;
  inv_stack : forall p, In p stack -> opens_ p;
  inv_click : forall p, In p clicks -> done p = true \/ In p stack;
  inv_done : forall p, inb row column p -> done p = true -> opens_ p /\ cell g p = shown b p;
  inv_und : forall p, inb row column p -> done p = false -> cell g p = cell g0 p;
  inv_dinb : forall p, done p = true -> inb row column p;
  inv_order : forall z n pre post, stack = pre ++ z :: post -> done z = true -> cell b z = 0 ->
     inb row column n -> adj z n -> covered g n = true -> In n pre;
  inv_close : forall z n, done z = true -> cell b z = 0 ->
     inb row column n -> adj z n -> covered g n = true -> In n stack;
  inv_loss : loss = true <-> exists p, done p = true /\ cell b p < 0
}.

Lemma shown_uncovered p : inb row column p -> shown b p <> 10 /\ shown b p <> 12.
Proof. intros Hp. unfold shown. specialize (Hb9 Hp). destruct (Z.ltb_spec (cell b p) 0); lia. Qed.

Definition und (done : pos -> bool) : nat := count (fun p => negb (done p)) (positions row column).

Lemma und_mark done p : inb row column p -> done p = false ->
  (und (fun q => done q || posb p q) + 1 = und done)%nat.
Proof.
  intros Hp Hd. unfold und.
  pose proof (@count_point _ pos_eq_dec (fun q => negb (done q || posb p q)) (fun q => negb (done q))
    (positions row column) p (NoDup_positions _ _) (proj2 (in_positions _ _ _) Hp)) as H.
  cbv beta in H. rewrite Hd, posb_refl, orb_true_r in H. simpl in H. rewrite Nat.add_0_r in H. apply H.
  intros x Hx. destruct (posb_spec p x); [congruence|]. now rewrite orb_false_r.
Qed.
Lemma und_same done p : done p = true -> und (fun q => done q || posb p q) = und done.
Proof.
  intros Hd. unfold und. apply count_ext. intros q _. destruct (posb_spec p q) as [<-|]; [now rewrite Hd|now rewrite orb_false_r].
Qed.

Lemma covered_upd_shown g p q : rect row column g -> inb row column p ->
  covered (upd g p (shown b p)) q = true -> q <> p /\ covered g q = true.
Proof.
  intros Hg Hp Hc. destruct (pos_eq_dec q p) as [->|Hn].
  - apply covered_iff in Hc. rewrite (cell_upd_eq _ Hg Hp) in Hc. pose proof (shown_uncovered Hp). tauto.
  - split; auto. unfold covered in *. rewrite !(@cell_upd_neq g p q) in Hc by auto. exact Hc.
Qed.

Lemma inv_pop g p stack loss done st' :
  Inv g (p :: stack) loss done ->
  (forall q, In q st' <-> cell b p = 0 /\ inb row column q /\ adj p q /\ covered (upd g p (shown b p)) q = true) ->
  Inv (upd g p (shown b p)) (st' ++ stack) (loss || (cell b p <? 0)) (fun q => done q || posb p q).
Proof.
  intros HI Hst. destruct HI as [Ir Iin Is Ic Id Iu Idi Io Icl Il].
  assert (Hp : inb row column p) by (apply Iin; left; auto).
  assert (Hop : opens_ p) by (apply Is; left; auto).
  (* a covered cell of the new board was covered initially and is not done *)
  assert (Hcov : forall q, inb row column q -> covered (upd g p (shown b p)) q = true ->
             q <> p /\ covered g q = true /\ (cell g0 q = 10 \/ cell g0 q = 12)).
  { intros q Hq Hc. apply covered_upd_shown in Hc as [Hn Hc]; auto. split; auto. split; auto.
    destruct (done q) eqn:Ed.
    - destruct (Id q Hq Ed) as [_ E]. apply covered_iff in Hc. rewrite E in Hc.
      pose proof (shown_uncovered Hq). tauto.
    - apply covered_iff in Hc. rewrite (Iu q Hq Ed) in Hc. exact Hc. }
  constructor.
  - now apply rect_upd.
  - intros q Hq. apply in_app_or in Hq as [Hq|Hq]; [apply Hst in Hq; tauto|apply Iin; right; auto].
  - intros q Hq. apply in_app_or in Hq as [Hq|Hq]; [|apply Is; right; auto].
    apply Hst in Hq as (Hz & Hq & Ha & Hc). apply (@opens_spread _ _ _ _ _ p q); auto. now apply Hcov.
  - intros q Hq. destruct (Ic q Hq) as [H|[H|H]].
    + left. now rewrite H.
    + left. subst. now rewrite posb_refl, orb_true_r.
    + right. apply in_or_app; auto.
  - intros q Hq Hd. rewrite (cell_upd _ _ Ir Hp). destruct (posb_spec p q) as [<-|Hn]; auto.
    rewrite orb_false_r in Hd. auto.
  - intros q Hq Hd. apply orb_false_iff in Hd as [Hd Hpq]. rewrite (cell_upd _ _ Ir Hp), Hpq. auto.
  - intros q Hd. apply orb_true_iff in Hd as [Hd|Hd]; auto. destruct (posb_spec p q); congruence.
  - (* order *)
    intros z n pre post E Hd Hz Hn Ha Hc.
    destruct (Hcov n Hn Hc) as (Hnp & Hcg & _).
    destruct (pos_eq_dec z p) as [->|Hzp].
    + (* every covered neighbour of p is in st' *)
      assert (Hns : In n st') by (apply Hst; auto).
      (* z = p is not in st' (p not covered now), so st' is a prefix of pre *)
      assert (Hpre : exists pre', pre = st' ++ pre').
      { assert (Hnotp : ~ In p st').
        { intros Hin. apply Hst in Hin as (_ & _ & [? _] & _). congruence. }
        clear -E Hnotp. revert pre E. induction st' as [|s st' IH]; intros pre E.
        - exists pre; auto.
        - destruct pre as [|a pre]; simpl in E; inversion E; subst.
          + exfalso. apply Hnotp. left; auto.
          + destruct (IH (fun H => Hnotp (or_intror H)) pre) as (pre' & ->); auto. exists pre'. reflexivity. }
      destruct Hpre as (pre' & ->). apply in_or_app; auto.
    + rewrite (@posb_neq p z) in Hd by congruence.
      rewrite orb_false_r in Hd.
      (* z occurs either in st' (impossible: z done and not covered) or in stack *)
      assert (Hnotz : ~ In z st').
      { intros Hin. apply Hst in Hin as (_ & Hzb & _ & Hcz). apply covered_upd_shown in Hcz as [_ Hcz]; auto.
        destruct (Id z Hzb Hd) as [_ E']. apply covered_iff in Hcz. rewrite E' in Hcz.
        pose proof (shown_uncovered Hzb). tauto. }
      assert (Hsplit : exists pre', pre = st' ++ pre' /\ stack = pre' ++ z :: post).
      { clear -E Hnotz. revert pre E. induction st' as [|s st' IH]; intros pre E.
        - exists pre; auto.
        - destruct pre as [|a pre]; simpl in E; inversion E; subst.
          + exfalso. apply Hnotz. left; auto.
          + destruct (IH (fun H => Hnotz (or_intror H)) pre) as (pre' & -> & ->); auto. exists pre'. auto. }
      destruct Hsplit as (pre' & -> & ->).
      assert (Hin : In n (p :: pre')) by (apply (Io z n (p :: pre') post); auto).
      destruct Hin as [->|Hin]; [congruence|]. apply in_or_app; auto.
  - intros z n Hd Hz Hn Ha Hc. destruct (Hcov n Hn Hc) as (Hnp & Hcg & _).
    apply in_or_app. destruct (pos_eq_dec z p) as [->|Hzp].
    + left. apply Hst. auto.
    + right. rewrite (@posb_neq p z) in Hd by congruence.
      rewrite orb_false_r in Hd. destruct (Icl z n Hd Hz Hn Ha Hcg) as [->|H]; [congruence|auto].
  - rewrite orb_true_iff, Il, Z.ltb_lt. split.
    + intros [(q & H1 & H2)|H].
      * exists q. now rewrite H1.
      * exists p. now rewrite posb_refl, orb_true_r.
    + intros (q & Hd & H). apply orb_true_iff in Hd as [Hd|Hd]; eauto.
      right. destruct (posb_spec p q); congruence.
Qed.

Lemma loop_ok fuel : forall g stack loss done,
  Inv g stack loss done -> (9 * und done + length stack < fuel)%nat ->
  exists g' loss' done', refresh_loop fuel row column b g stack loss = Ok (g', loss') /\
    Inv g' [] loss' done'.
Proof.
  induction fuel as [|fuel IH]; intros g stack loss done HI Hf; [lia|].
  destruct stack as [|[i j] stack].
  - exists g, loss, done. auto.
  - pose proof (inv_rect HI) as Hg.
    assert (Hp : inb row column (i, j)) by (apply (inv_in HI); left; auto).
    cbn [refresh_loop]. rewrite (get_ok Hb Hp). cbn [bind].
    (* generic continuation *)
    assert (Hnext : forall st' loss1,
      (forall q, In q st' <-> cell b (i, j) = 0 /\ inb row column q /\ adj (i, j) q /\ covered (upd g (i, j) (shown b (i, j))) q = true) ->
      (length st' <= 8)%nat -> loss1 = loss || (cell b (i, j) <? 0) ->
      exists g' loss' done', refresh_loop fuel row column b (upd g (i, j) (shown b (i, j))) (st' ++ stack) loss1 = Ok (g', loss') /\
        Inv g' [] loss' done').
    { intros st' loss1 Hst Hlen ->. apply (IH _ _ _ (fun q => done q || posb (i, j) q)).
      - apply inv_pop; auto.
      - rewrite app_length. simpl in Hf. destruct (done (i, j)) eqn:Ed.
        + rewrite und_same by auto.
          (* nothing is pushed *)
          assert (st' = []).
          { destruct st' as [|q st']; auto. exfalso.
            destruct (proj1 (Hst q) (or_introl eq_refl)) as (Hz & Hq & Ha & Hc).
            apply covered_upd_shown in Hc as [_ Hc]; auto.
            apply (inv_order HI (z := (i, j)) (n := q) (pre := []) (post := stack)); auto. }
          subst st'. simpl. lia.
        + pose proof (und_mark Hp Ed). lia. }
    destruct (Z.ltb_spec 0 (cell b (i, j))) as [H0|H0].
    + rewrite (set_ok _ Hg Hp). cbn [bind].
      assert (Es : shown b (i, j) = cell b (i, j)) by (unfold shown; destruct (Z.ltb_spec (cell b (i, j)) 0); lia).
      destruct (Hnext [] loss) as (g' & l' & d' & E & HI').
      * intros q. simpl. split; [tauto|]. intros [? _]. lia.
      * simpl; lia.
      * destruct (Z.ltb_spec (cell b (i, j)) 0); [lia|now rewrite orb_false_r].
      * rewrite Es in E. eauto.
    + destruct (Z.eqb_spec (cell b (i, j)) 0) as [Hz|Hz].
      * rewrite (set_ok _ Hg Hp). cbn [bind].
        assert (Es : shown b (i, j) = 0) by (unfold shown; rewrite Hz; reflexivity).
        destruct (@push_zone row column (upd g (i, j) 0) i j stack (rect_upd _ _ Hg)) as (st' & E & Hst & Hlen).
        rewrite E. cbn [bind].
        destruct (Hnext st' loss) as (g' & l' & d' & E' & HI'); auto.
        -- intros q. rewrite Es, Hst. tauto.
        -- rewrite Hz. now rewrite orb_false_r.
        -- rewrite Es in E'. eauto.
      * rewrite (set_ok _ Hg Hp). cbn [bind].
        assert (Es : shown b (i, j) = 15) by (unfold shown; destruct (Z.ltb_spec (cell b (i, j)) 0); lia).
        destruct (Hnext [] true) as (g' & l' & d' & E' & HI').
        -- intros q. simpl. tauto.
        -- simpl; lia.
        -- destruct (Z.ltb_spec (cell b (i, j)) 0); [now rewrite orb_true_r|lia].
        -- rewrite Es in E'. eauto.
Qed.

Lemma inv_init : Inv g0 (rev clicks) false (fun _ => false).
Proof.
  constructor; auto; try discriminate.
  - intros p Hp. apply Hclicks. now apply in_rev.
  - intros p Hp. constructor. now apply in_rev.
  - intros p Hp. right. now apply in_rev in Hp.
  - split; [discriminate|]. intros (p & H & _). discriminate.
Qed.

Lemma loop_final : exists g' loss,
  refresh_loop (9 * (row * column) + length clicks + 1) row column b g0 (rev clicks) false = Ok (g', loss) /\
  rect row column g' /\
  (forall q, inb row column q -> (opens_ q -> cell g' q = shown b q) /\ (~ opens_ q -> cell g' q = cell g0 q)) /\
  (loss = true <-> exists p, opens_ p /\ cell b p < 0) /\
  (forall q, inb row column q -> opens_ q \/ ~ opens_ q).
Proof.
  destruct (@loop_ok (9 * (row * column) + length clicks + 1) g0 (rev clicks) false (fun _ => false) inv_init)
    as (g' & loss & done & E & HI).
  { rewrite rev_length. unfold und. pose proof (count_le (fun _ : pos => negb false) (positions row column)) as H.
    rewrite length_positions in H. lia. }
  assert (Hdone : forall q, opens_ q -> done q = true).
  { intros q Hq. induction Hq as [q Hq|p q Hp IHp Hz Hq Ha Hc].
    - destruct (inv_click HI Hq) as [H|[]]; auto.
    - destruct (done q) eqn:Ed; auto. exfalso.
      apply (inv_close HI (z := p) (n := q)); auto. apply covered_iff. rewrite (inv_und HI Hq Ed). auto. }
  exists g', loss. split; [exact E|]. split; [exact (inv_rect HI)|]. split; [|split].
  - intros q Hq. split.
    + intros Ho. apply (inv_done HI); auto.
    + intros Hno. destruct (done q) eqn:Ed.
      * exfalso. apply Hno. apply (inv_done HI); auto.
      * apply (inv_und HI); auto.
  - rewrite (inv_loss HI). split; intros (p & H1 & H2); exists p; split; auto.
    apply (inv_done HI); auto. apply (inv_dinb HI); auto.
  - intros q Hq. destruct (done q) eqn:Ed; [left|right].
    + apply (inv_done HI); auto.
    + intros Ho. apply Hdone in Ho. congruence.
Qed.
End Loop.

(** main characterisation *)
Lemma refresh_board_ok row column b g clicks :
  rect row column b -> rect row column g -> (0 < row)%nat ->
  (forall p, inb row column p -> cell b p < 10) ->
  (forall p, In p clicks -> inb row column p) ->
  exists g', refresh_board b g clicks = Ok g' /\ rect row column g' /\
    let O := opens row column b g clicks in
    (forall q, inb row column q -> O q -> cell g' q = shown b q) /\
    ((exists p, O p /\ cell b p < 0) ->
       forall q, inb row column q -> ~ O q ->
         cell g' q = if (cell g q =? 11) && negb (is_mine b q) then 14 else cell g q) /\
    ((forall p, O p -> 0 <= cell b p) -> forall q, inb row column q -> ~ O q -> cell g' q = cell g q).
Proof.
  intros Hb Hg Hrow H9 Hcl.
  destruct (@loop_final row column b g clicks Hb Hg H9 Hcl) as (g1 & loss & E & Hr1 & Hc1 & Hl & Hdec).
  unfold refresh_board, get_row, get_column. rewrite (ncolsR_ok Hb Hrow), (nrows_ok Hb). cbn [bind].
  rewrite E. cbn [bind]. destruct loss.
  - match goal with |- context [foldM ?f _ _] =>
    destruct (@foldM_pointwise row column f (fun p v => if (v =? 11) && negb (is_mine b p) then 14 else v)
             (grid row column) (NoDup_positions _ _)) with (b := g1)
      as (g' & E' & Hr' & Hc') end; auto.
    + intros p Hp. now apply in_grid.
    + intros s [i j] Hij Hs. apply in_grid in Hij.
      rewrite (get_ok Hs Hij). cbn [bind]. destruct (cell s (i, j) =? 11); simpl andb; cbv iota.
      * rewrite (get_ok Hb Hij). cbn [bind]. unfold is_mine.
        destruct (cell b (i, j) =? -1); simpl negb; cbv iota.
        -- now rewrite (upd_same Hs Hij).
        -- apply (set_ok _ Hs Hij).
      * now rewrite (upd_same Hs Hij).
    + exists g'. split; [exact E'|]. split; [exact Hr'|].
      assert (Hc'' : forall q, inb row column q -> cell g' q = if (cell g1 q =? 11) && negb (is_mine b q) then 14 else cell g1 q).
      { intros q Hq. rewrite Hc'. destruct (inl_spec q (grid row column)) as [_|Hn]; auto.
        exfalso. apply Hn. now apply in_grid. }
      split; [|split].
      * intros q Hq Ho. rewrite Hc'' by auto. destruct (Hc1 q Hq) as [H _]. rewrite (H Ho).
        unfold shown. specialize (H9 q Hq). destruct (Z.ltb_spec (cell b q) 0); [reflexivity|].
        destruct (Z.eqb_spec (cell b q) 11); [lia|reflexivity].
      * intros _ q Hq Hno. rewrite Hc'' by auto. destruct (Hc1 q Hq) as [_ H]. rewrite (H Hno). reflexivity.
      * intros Hall. exfalso. destruct (proj1 Hl eq_refl) as (p & Hp & Hneg). specialize (Hall p Hp). lia.
  - exists g1. split; [reflexivity|]. split; [exact Hr1|]. split; [|split].
    + intros q Hq Ho. now apply Hc1.
    + intros Hex. apply Hl in Hex. discriminate.
    + intros _ q Hq Hno. now apply Hc1.
Qed.

Lemma opens_dec row column b g clicks :
  rect row column b -> rect row column g ->
  (forall p, inb row column p -> cell b p < 10) ->
  (forall p, In p clicks -> inb row column p) ->
  forall q, inb row column q -> opens row column b g clicks q \/ ~ opens row column b g clicks q.
Proof.
  intros Hb Hg H9 Hcl. destruct (@loop_final row column b g clicks Hb Hg H9 Hcl) as (g1 & loss & _ & _ & _ & _ & Hdec).
  exact Hdec.
Qed.
