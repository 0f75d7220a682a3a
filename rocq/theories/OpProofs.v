(** * OpProofs: the flood of [cell_is_op_completed] and the neighbourhood scans. *)
From Verif Require Import Base Spec BaseFacts LayMine LayMineProofs Metrics MetricsProofs MineBoard.
Open Scope Z_scope.

Notation mget := (gcell false).

(** the push loop *)
Lemma push_marks row column (mark : list (list bool)) i j st :
  rect row column mark ->
  exists st', foldM (fun st '(m, n) =>
                            if negb (i =? m)%nat || negb (j =? n)%nat then
                              let* k := get mark m n in
                              Ok (if negb k then (m, n) :: st else st)
                            else Ok st)
                          (zone row column i j) st = Ok (st' ++ st) /\
    (length st' <= 8)%nat /\
    forall q, In q st' <-> inb row column q /\ adj (i, j) q /\ mget mark q = false.
Proof.
  intros Hm.
  match goal with |- context [foldM ?f _ _] => set (F := f) end.
  assert (G : forall l, (forall q, In q l -> inb row column q /\ near (i, j) q) -> forall st,
    exists st', foldM F l st = Ok (st' ++ st) /\
      (length st' <= count (fun q => negb (posb (i, j) q)) l)%nat /\
      forall q, In q st' <-> In q l /\ adj (i, j) q /\ mget mark q = false).
  { induction l as [|[m n] l IH]; intros Hl st0.
    - exists []. simpl. repeat split; auto; intros; tauto.
    - destruct (Hl (m, n) (or_introl eq_refl)) as [Hb Hn].
      assert (Hl' : forall q, In q l -> inb row column q /\ near (i, j) q) by (intros; apply Hl; right; auto).
      simpl. unfold F at 1.
      replace (negb (i =? m)%nat || negb (j =? n)%nat) with (negb (posb (i, j) (m, n)))
        by (unfold posb; cbn [fst snd]; destruct (i =? m)%nat, (j =? n)%nat; reflexivity).
      rewrite count_cons. destruct (posb_spec (i, j) (m, n)) as [E|Hne]; cbn [negb].
      + simpl. destruct (IH Hl' st0) as (st' & E1 & L1 & I1). exists st'. split; auto. split; [simpl; lia|].
        intros q. rewrite I1. split; [tauto|]. intros ([<-|?] & Ha & ?); [destruct Ha; congruence|tauto].
      + rewrite (get_gok false Hm Hb). cbn [bind]. destruct (mget mark (m, n)) eqn:Ek; cbn [negb].
        * destruct (IH Hl' st0) as (st' & E1 & L1 & I1). exists st'. split; auto. split; [lia|].
          intros q. rewrite I1. split; [tauto|]. intros ([<-|?] & Ha & ?); [congruence|tauto].
        * destruct (IH Hl' ((m, n) :: st0)) as (st' & E1 & L1 & I1). exists (st' ++ [(m, n)]).
          rewrite <- app_assoc. split; auto. split; [rewrite app_length; simpl; lia|].
          intros q. rewrite in_app_iff, I1. cbn [In]. unfold adj. split; [intros [?|[<-|[]]]; tauto|].
          intros ([<-|?] & ? & ?); tauto. }
  destruct (G (zone row column i j)) with (st := st) as (st' & E1 & L1 & I1).
  { intros q Hq. now apply in_zone in Hq. }
  exists st'. split; auto. split.
  - eapply Nat.le_trans; [exact L1|]. rewrite (@count_ext _ _ (fun q => negb (posb (i,j) q) && true)) by (intros; now rewrite andb_true_r).
    rewrite <- (adj_count_zone row column (fun _ => true)). apply adj_count_le.
  - intros q. rewrite I1, in_zone. unfold adj. tauto.
Qed.

Section Op.
Variables (row column : nat) (b g : board) (mark0 : list (list bool)) (p : pos).
Hypothesis Hb : rect row column b.
Hypothesis Hg : rect row column g.
Hypothesis Hm0 : rect row column mark0.
Hypothesis Hp : inb row column p.
Hypothesis Hz : cell b p = 0.
Hypothesis Hpm : mget mark0 p = false.

Definition unseen (q : pos) : Prop := zero_cell row column b q /\ mget mark0 q = false.
Notation reach := (connected unseen p).

Definition wt (q : pos) : nat := if cell b q =? 0 then 10 else 1.
Fixpoint wts (l : list pos) : nat := match l with [] => 0 | q :: l' => wt q + wts l' end.
Definition und_ (mark : list (list bool)) : nat :=
  count (fun q => (cell b q =? 0) && negb (mget mark q)) (positions row column).

Record OpInv (mark : list (list bool)) (stack : list pos) : Prop := {
  oi_rect : rect row column mark;
  oi_in : forall q, In q stack -> inb row column q /\ mget mark0 q = false;
  oi_reach : forall q, In q stack -> cell b q = 0 -> reach q;
  oi_mono : forall q, mget mark0 q = true -> mget mark q = true;
  oi_mark : forall q, inb row column q -> mget mark q = true -> mget mark0 q = true \/ (reach q /\ cell g q <> 11);
  oi_close : forall q r, inb row column q -> mget mark q = true -> mget mark0 q = false ->
     unseen r -> near q r -> mget mark r = true \/ In r stack;
  oi_above : forall pre z post, stack = pre ++ z :: post -> mget mark z = true ->
     forall r, unseen r -> near z r -> mget mark r = true \/ In r pre;
  oi_start : mget mark p = true \/ In p stack
}.

Lemma wts_app l1 l2 : wts (l1 ++ l2) = (wts l1 + wts l2)%nat.
Proof. induction l1; simpl; lia. Qed.
Lemma wts_le l : (wts l <= 10 * length l)%nat.
Proof. induction l as [|q l IH]; simpl; [lia|]. unfold wt at 1. destruct (cell b q =? 0); lia. Qed.
Lemma wts_small l : (forall q, In q l -> cell b q <> 0) -> (wts l <= length l)%nat.
Proof.
  induction l as [|q l IH]; intros H; simpl; [lia|]. unfold wt at 1.
  destruct (Z.eqb_spec (cell b q) 0); [exfalso; apply (H q); simpl; auto|].
  assert (wts l <= length l)%nat by (apply IH; intros; apply H; simpl; auto). lia.
Qed.

Lemma opinv_init : OpInv mark0 [p].
Proof.
  constructor; auto.
  - intros q [<-|[]]; auto.
  - intros q [<-|[]] _. constructor. split; auto. split; auto.
  - intros; congruence.
  - intros pre z post E Ez. destruct pre as [|x pre]; [injection E as <- <-; congruence|].
    destruct pre; discriminate.
  - right; left; auto.
Qed.

(** popping a non-zero cell *)
Lemma opinv_skip mark q stack : OpInv mark (q :: stack) -> cell b q <> 0 -> OpInv mark stack.
Proof.
  intros [H1 H2 H3 H4 H5 H6 H7 H8] Hq. constructor; auto.
  - intros x Hx. apply H2. now right.
  - intros x Hx. apply H3. now right.
  - intros x r Hx Em Em0 Hr Hn. destruct (H6 x r Hx Em Em0 Hr Hn) as [?|[<-|?]]; auto.
    exfalso. apply Hq, Hr.
  - intros pre z post E Ez r Hr Hn. destruct (H7 (q :: pre) z post) with (r := r) as [?|[<-|?]]; auto.
    { rewrite E; reflexivity. } { exfalso. apply Hq, Hr. }
  - destruct H8 as [?|[<-|?]]; auto; contradiction.
Qed.

Lemma opinv_pop mark q stack st' : OpInv mark (q :: stack) -> cell b q = 0 -> cell g q <> 11 ->
  (forall r, In r st' <-> inb row column r /\ adj q r /\ mget (upd mark q true) r = false) ->
  OpInv (upd mark q true) (st' ++ stack).
Proof.
  intros [H1 H2 H3 H4 H5 H6 H7 H8] Hq0 Hq11 Hst.
  destruct (H2 q (or_introl eq_refl)) as [Hqb Hqm].
  assert (Hrq : reach q) by (apply H3; simpl; auto).
  assert (Hupd : forall r, mget (upd mark q true) r = (posb q r || mget mark r)).
  { intros r. rewrite (gcell_upd false r _ H1 Hqb). destruct (posb q r); reflexivity. }
  assert (Hnew : forall r, unseen r -> near q r -> mget (upd mark q true) r = true \/ In r st').
  { intros r Hr Hn. destruct (mget (upd mark q true) r) eqn:E; auto. right. apply Hst. split; [apply Hr|].
    split; auto. split; auto. intros <-. rewrite Hupd, posb_refl in E. discriminate. }
  constructor.
  - now apply rect_upd.
  - intros r Hr. apply in_app_iff in Hr as [Hr|Hr]; [|apply H2; now right].
    apply Hst in Hr as (Hrb & _ & Hrm). split; auto.
    destruct (mget mark0 r) eqn:E; auto. apply H4 in E. rewrite Hupd, E, orb_true_r in Hrm. discriminate.
  - intros r Hr Hr0. apply in_app_iff in Hr as [Hr|Hr]; [|apply H3; auto; now right].
    apply Hst in Hr as (Hrb & [_ Hn] & Hrm). apply conn_step with q; auto. split; [split; auto|].
    destruct (mget mark0 r) eqn:E; auto. apply H4 in E. rewrite Hupd, E, orb_true_r in Hrm. discriminate.
  - intros r Hr. rewrite Hupd, (H4 _ Hr). apply orb_true_r.
  - intros r Hr E. rewrite Hupd in E. apply orb_true_iff in E as [E|E]; [|auto].
    destruct (posb_spec q r) as [<-|]; [right; auto|discriminate].
  - intros x r Hx Em Em0 Hr Hn. rewrite Hupd in Em. destruct (posb_spec q x) as [<-|Hne].
    + destruct (Hnew r Hr Hn) as [?|?]; auto. right. apply in_app_iff; auto.
    + simpl in Em. destruct (H6 x r Hx Em Em0 Hr Hn) as [E|[<-|Hi]].
      * left. rewrite Hupd, E. apply orb_true_r.
      * left. rewrite Hupd, posb_refl. reflexivity.
      * right. apply in_app_iff; auto.
  - intros pre z post E Ez r Hr Hn.
    assert (Hcase : In z st' \/ exists pre', stack = pre' ++ z :: post /\ pre = st' ++ pre').
    { clear -E. revert pre E. induction st' as [|y st' IH]; intros pre E.
      - right. exists pre. auto.
      - destruct pre as [|y' pre]; simpl in E.
        + injection E as -> E. left; left; auto.
        + injection E as -> E. destruct (IH _ E) as [?|(pre' & ? & ->)]; [left; right; auto|].
          right. exists pre'. auto. }
    destruct Hcase as [Hz'|(pre' & -> & ->)].
    + apply Hst in Hz' as (_ & _ & Hzm). congruence.
    + rewrite Hupd in Ez. destruct (posb_spec q z) as [<-|Hne].
      * destruct (Hnew r Hr Hn); auto. right. apply in_app_iff; auto.
      * simpl in Ez. destruct (H7 (q :: pre') z post eq_refl Ez r Hr Hn) as [E1|[<-|E1]].
        -- left. rewrite Hupd, E1. apply orb_true_r.
        -- left. rewrite Hupd, posb_refl. reflexivity.
        -- right. apply in_app_iff; auto.
  - rewrite Hupd. destruct H8 as [E|[<-|E]].
    + left. rewrite E. apply orb_true_r.
    + left. rewrite posb_refl. reflexivity.
    + right. apply in_app_iff; auto.
Qed.

Lemma op_loop_ok fuel : forall mark stack, OpInv mark stack -> (90 * und_ mark + wts stack < fuel)%nat ->
  exists r mark', op_loop fuel row column b g mark stack = Ok (r, mark') /\
    rect row column mark' /\
    (forall q, mget mark0 q = true -> mget mark' q = true) /\
    (forall q, inb row column q -> mget mark' q = true -> mget mark0 q = true \/ reach q) /\
    (if r : bool then forall q, reach q -> mget mark' q = true /\ cell g q <> 11
     else exists q, reach q /\ cell g q = 11).
Proof.
  induction fuel as [|fuel IH]; intros mark stack HI Hf; [lia|].
  destruct stack as [|[i j] stack].
  - exists true, mark. simpl. split; auto. destruct HI as [H1 H2 H3 H4 H5 H6 H7 H8].
    split; auto. split; auto. split; [intros q Hq E; destruct (H5 q Hq E) as [|[? _]]; auto|].
    assert (Hall : forall q, reach q -> mget mark q = true).
    { assert (Hg' : forall s q, connected unseen s q -> mget mark s = true -> mget mark q = true).
      { intros s q Hq Hs. clear - Hq Hs H6. induction Hq as [x Hx|x y z Hxy IHc Hn Hz']; auto.
        assert (Hyu := connected_r Hxy).
        destruct (H6 y z) as [?|[]]; auto; apply Hyu. }
      intros q Hq. apply (Hg' p); auto. destruct H8 as [?|[]]; auto. }
    intros q Hq. split; auto. destruct (H5 q) as [E|[_ E]]; auto.
    + apply (connected_r Hq).
    + apply connected_r in Hq as [_ Hq]. congruence.
  - destruct (oi_in HI (or_introl eq_refl)) as [Hqb Hqm].
    cbn [op_loop]. rewrite (get_ok Hb Hqb). cbn [bind].
    destruct (Z.ltb_spec 0 (cell b (i, j))) as [Hpos|Hnp].
    { apply IH; [apply opinv_skip in HI; auto; lia|]. cbn [wts] in Hf. unfold wt in Hf.
      destruct (cell b (i, j) =? 0); lia. }
    destruct (Z.eqb_spec (cell b (i, j)) 0) as [H0|Hn0].
    2:{ apply IH; [apply opinv_skip in HI; auto; lia|]. cbn [wts] in Hf. unfold wt in Hf.
      destruct (cell b (i, j) =? 0); lia. }
    rewrite (get_ok Hg Hqb). cbn [bind].
    assert (Hrq : reach (i, j)) by (apply (oi_reach HI); simpl; auto).
    destruct (Z.eqb_spec (cell g (i, j)) 11) as [E11|Hn11].
    { exists false, mark. split; auto. split; [apply HI|]. split; [apply HI|].
      split; [intros q Hq E; destruct (oi_mark HI Hq E) as [|[? _]]; auto|]. eauto. }
    rewrite (set_ok true (oi_rect HI) Hqb). cbn [bind].
    destruct (@push_marks row column (upd mark (i, j) true) i j stack) as (st' & E & L & I).
    { apply rect_upd, HI. }
    rewrite E. cbn [bind]. apply IH; [now apply opinv_pop|].
    rewrite wts_app. cbn [wts] in Hf. unfold wt at 1 in Hf. rewrite H0, Z.eqb_refl in Hf.
    destruct (mget mark (i, j)) eqn:Em.
    + assert (Hsm : (wts st' <= length st')%nat).
      { apply wts_small. intros r Hr Hr0. apply I in Hr as (Hrb & Ha & Hrm).
        assert (Hrm' : mget mark r = false).
        { rewrite gcell_upd_neq in Hrm; auto. apply Ha. }
        destruct (oi_above HI (pre := []) eq_refl Em (r := r)) as [?|[]]; [|apply Ha|congruence].
        split; [split; auto|]. destruct (mget mark0 r) eqn:E0; auto. apply (oi_mono HI) in E0. congruence. }
      assert (Hu : und_ (upd mark (i, j) true) = und_ mark).
      { apply count_ext. intros x _. f_equal. f_equal. destruct (pos_eq_dec (i, j) x) as [<-|Hne].
        - rewrite (gcell_upd_eq false true (oi_rect HI) Hqb). auto.
        - now apply gcell_upd_neq. }
      rewrite Hu. lia.
    + assert (Hu : (und_ (upd mark (i, j) true) + 1 = und_ mark)%nat).
      { unfold und_.
        pose proof (@count_point _ pos_eq_dec
          (fun q => (cell b q =? 0) && negb (mget (upd mark (i, j) true) q))
          (fun q => (cell b q =? 0) && negb (mget mark q)) (positions row column) (i, j)
          (NoDup_positions _ _) (proj2 (in_positions _ _ _) Hqb)) as Hc.
        cbv beta in Hc. rewrite (gcell_upd_eq false true (oi_rect HI) Hqb), Em, H0, Z.eqb_refl in Hc.
        cbn [andb negb] in Hc. rewrite Nat.add_0_r in Hc. apply Hc.
        intros x Hx. now rewrite gcell_upd_neq by congruence. }
      pose proof (wts_le st'). lia.
Qed.

Lemma op_completed_spec :
  exists r mark', op_loop (90 * (row * column) + 11) row column b g mark0 [p] = Ok (r, mark') /\
    rect row column mark' /\
    (forall q, mget mark0 q = true -> mget mark' q = true) /\
    (forall q, inb row column q -> mget mark' q = true -> mget mark0 q = true \/ reach q) /\
    (if r : bool then forall q, reach q -> mget mark' q = true /\ cell g q <> 11
     else exists q, reach q /\ cell g q = 11).
Proof.
  apply op_loop_ok; [apply opinv_init|].
  assert (und_ mark0 <= row * column)%nat.
  { unfold und_. rewrite <- (length_positions row column). apply count_le. }
  cbn [wts]. unfold wt. rewrite Hz, Z.eqb_refl. lia.
Qed.
End Op.
