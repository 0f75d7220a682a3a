(** * MineBoardProofs: invariants of the [MinesweeperBoard] state machine. *)
From Verif Require Import Base Spec BaseFacts LayMine LayMineProofs Metrics MetricsProofs
  Refresh RefreshProofs BBBVProofs MineBoard OpProofs.
From Coq Require Sorting.Sorted.
Open Scope Z_scope.

Lemma get_inv {A} (d : A) row column (b : list (list A)) i j v :
  rect row column b -> get b i j = Ok v -> inb row column (i, j) /\ v = gcell d b (i, j).
Proof.
  intros [Hl Hf] H. unfold get in H. destruct (nth_error b i) as [r|] eqn:E1; [|discriminate].
  destruct (nth_error r j) as [w|] eqn:E2; [|discriminate]. injection H as ->.
  rewrite Forall_forall in Hf. assert (Hr : length r = column) by (apply Hf; eapply nth_error_In; eauto).
  split.
  - split; cbn [fst snd]; [rewrite <- Hl|rewrite <- Hr]; apply nth_error_Some; congruence.
  - unfold gcell; cbn [fst snd]. rewrite (nth_error_nth _ _ [] E1). now rewrite (nth_error_nth _ _ d E2).
Qed.
Lemma get_out {A} row column (b : list (list A)) i j :
  rect row column b -> ~ inb row column (i, j) -> get b i j = Panic.
Proof.
  intros [Hl Hf] H. unfold get. destruct (nth_error b i) as [r|] eqn:E1; auto.
  rewrite Forall_forall in Hf. assert (Hr : length r = column) by (apply Hf; eapply nth_error_In; eauto).
  destruct (nth_error r j) as [w|] eqn:E2; auto. exfalso. apply H.
  split; cbn [fst snd]; [rewrite <- Hl|rewrite <- Hr]; apply nth_error_Some; congruence.
Qed.

(** ** views of the visible board *)
Section View.
Variables (row column : nat) (b : board).
Hypothesis Hleg : legal_board row column b.
Hypothesis Hrow : (0 < row)%nat.

(** covered, flagged, or open and safe *)
Definition good (g : board) (q : pos) : Prop :=
  cell g q = 10 \/ cell g q = 11 \/ (cell g q = cell b q /\ cell b q <> -1).
Definition nflags (g : board) : nat := count (fun q => cell g q =? 11) (positions row column).
Definition safe_open (g : board) : Prop :=
  forall q, inb row column q -> cell b q <> -1 -> cell g q < 10.
Definition before (px py : nat) (q : pos) : Prop := (fst q < px \/ fst q = px /\ snd q < py)%nat.
Definition ptr_ok (g : board) (px py : nat) : Prop :=
  (px < row)%nat /\ forall q, inb row column q -> before px py q -> cell b q = -1 \/ cell g q < 10.

Lemma safe_range q : inb row column q -> cell b q <> -1 -> 0 <= cell b q <= 8.
Proof.
  intros Hq Hn. destruct Hleg as [_ Hc]. destruct (Hc q Hq) as [E|E]; [contradiction|].
  pose proof (adj_count_le row column (is_mine b) q). lia.
Qed.

Lemma refresh_live g clicks :
  rect row column g -> (forall q, inb row column q -> good g q) ->
  (forall p, In p clicks -> inb row column p /\ cell g p = 10) ->
  exists g', refresh_board b g clicks = Ok g' /\ rect row column g' /\
    let O := opens row column b g clicks in
    (forall q, inb row column q -> O q \/ ~ O q) /\
    (forall q, O q -> inb row column q /\ cell g q = 10) /\
    (forall q, O q -> cell b q = -1 -> In q clicks) /\
    ((forall p, In p clicks -> cell b p <> -1) -> forall q, inb row column q ->
       (O q -> cell g' q = cell b q /\ cell b q <> -1) /\ (~ O q -> cell g' q = cell g q)) /\
    ((exists p, In p clicks /\ cell b p = -1) -> forall q, inb row column q ->
       (O q -> cell g' q = shown b q) /\
       (~ O q -> cell g' q = if (cell g q =? 11) && negb (is_mine b q) then 14 else cell g q)).
Proof.
  intros Hr Hgood Hcl.
  destruct (@refresh_board_ok row column b g clicks) as (g' & E & Hr' & Ho & Hl & Hn); auto.
  { apply Hleg. } { now apply legal_lt10. } { intros p Hp. now apply Hcl. }
  assert (Hob : forall q, opens row column b g clicks q -> inb row column q /\ cell g q = 10).
  { intros q Hq. induction Hq as [q Hq|p q Hp IH H0 Hq Ha Hc]; [auto|]. split; auto.
    destruct Hc as [?|Hc]; auto. destruct (Hgood q Hq) as [?|[?|[Hg Hb]]]; try lia.
    pose proof (safe_range Hq Hb). lia. }
  assert (Hom : forall q, opens row column b g clicks q -> cell b q = -1 -> In q clicks).
  { intros q Hq Hm. destruct Hq as [q Hq|p q Hp H0 Hq Ha Hc]; auto. exfalso.
    assert (0 <= cell b q); [|lia]. apply (@zero_no_mine row column b) with p; auto.
    - split; auto. now apply Hob.
    - apply Ha. }
  exists g'. split; auto. split; auto. cbv zeta. split.
  { apply opens_dec; auto; [apply Hleg|now apply legal_lt10|]. intros; now apply Hcl. }
  split; auto. split; auto. split.
  - intros Hsafe q Hq.
    assert (Hall : forall p, opens row column b g clicks p -> 0 <= cell b p).
    { intros p Hp. destruct (Z.eq_dec (cell b p) (-1)) as [Hm|Hm].
      - exfalso. apply (Hsafe p); auto.
      - apply safe_range; auto. now apply Hob. }
    split; [|apply Hn; auto]. intros HO. rewrite (Ho q Hq HO). unfold shown.
    specialize (Hall q HO). destruct (Z.ltb_spec (cell b q) 0); lia.
  - intros (p & Hp & Hm) q Hq. split; [apply Ho; auto|]. apply Hl; auto.
    exists p. split; [now constructor|lia].
Qed.

Lemma ptr_mono g g' px py : ptr_ok g px py ->
  (forall q, inb row column q -> cell g q < 10 -> cell g' q < 10) -> ptr_ok g' px py.
Proof.
  intros [H1 H2] H. split; auto. intros q Hq Hb. destruct (H2 q Hq Hb); auto.
Qed.

Lemma win_scan_ok g l : rect row column g ->
  (forall q, inb row column q -> cell g q < 10 -> cell g q = cell b q) ->
  (forall q, In q l -> inb row column q) ->
  (win_scan b g l = Ok None /\ forall q, In q l -> cell b q = -1 \/ cell g q < 10) \/
  (exists l1 q l2, l = l1 ++ q :: l2 /\ win_scan b g l = Ok (Some (Some q)) /\
     10 <= cell g q /\ cell b q <> -1 /\ forall r, In r l1 -> cell b r = -1 \/ cell g r < 10).
Proof.
  intros Hr Heq. induction l as [|[i j] l IH]; intros Hl; [left; split; auto; intros q []|].
  assert (Hq : inb row column (i, j)) by (apply Hl; left; auto). cbn [win_scan].
  rewrite (get_ok Hr Hq). cbn [bind]. rewrite (get_ok (proj1 Hleg) Hq). cbn [bind].
  destruct (Z.ltb_spec (cell g (i, j)) 10) as [H10|H10].
  - rewrite (Heq _ Hq H10). rewrite Z.eqb_refl. cbn [negb bind].
    rewrite <- (Heq _ Hq H10). destruct (Z.leb_spec 10 (cell g (i, j))); [lia|]. cbn [bind].
    destruct IH as [[E H1]|(l1 & q & l2 & -> & E & H1 & H2 & H3)].
    { intros; apply Hl; right; auto. }
    + left. split; auto. intros q [<-|Hi]; auto.
    + right. exists ((i, j) :: l1), q, l2. split; auto. split; auto. split; auto. split; auto.
      intros r [<-|Hi]; auto.
  - cbn [bind]. destruct (Z.leb_spec 10 (cell g (i, j))); [|lia]. cbn [bind].
    destruct (Z.eqb_spec (cell b (i, j)) (-1)) as [Hm|Hm]; cbn [negb].
    + destruct IH as [[E H1]|(l1 & q & l2 & -> & E & H1 & H2 & H3)].
      { intros; apply Hl; right; auto. }
      * left. split; auto. intros q [<-|Hi]; auto.
      * right. exists ((i, j) :: l1), q, l2. split; auto. split; auto. split; auto. split; auto.
        intros r [<-|Hi]; auto.
    + right. exists [], (i, j), l. split; auto. split; auto. split; auto. split; auto. intros r [].
Qed.

Lemma in_win_order px py q : (px < row)%nat ->
  In q (win_order row column px py) <-> inb row column q /\ ~ before px py q.
Proof.
  intros Hpx. destruct q as [i j]. unfold win_order, inb, before; cbn [fst snd].
  rewrite in_app_iff, in_map_iff, in_prod_iff, in_rng, in_seq. split.
  - intros [(j' & E & Hj)|[H1 H2]]; [|lia]. injection E as <- <-. apply in_rng in Hj. lia.
  - intros [[H1 H2] H3]. destruct (Nat.eq_dec i px) as [->|Hne]; [|right; lia].
    left. exists j. split; auto. apply in_rng. lia.
Qed.

(** everything that precedes a stop in the scan order is before it *)
Lemma win_order_prefix px py l1 q l2 : (px < row)%nat ->
  win_order row column px py = l1 ++ q :: l2 ->
  forall r, inb row column r -> ~ before px py r -> before (fst q) (snd q) r -> In r l1.
Proof.
  intros Hpx E r Hr Hnb Hb.
  assert (Hsorted : forall l1 q l2, win_order row column px py = l1 ++ q :: l2 ->
            forall r, In r l2 -> before (fst r) (snd r) q).
  { clear. intros l1 q l2. unfold win_order.
    assert (Hs : forall (R : pos -> pos -> Prop) l, 
       (Sorted.StronglySorted R l) -> forall l1 q l2, l = l1 ++ q :: l2 -> forall r, In r l2 -> R q r).
    { intros R l Hs. induction Hs as [|x l Hs IH Hx]; intros l1' q' l2' E r Hr.
      - destruct l1'; discriminate.
      - destruct l1' as [|y l1']; simpl in E; injection E as <- E.
        + rewrite Forall_forall in Hx. apply Hx. congruence.
        + eapply IH; eauto. }
    intros E r Hr. refine (Hs (fun x y => before (fst y) (snd y) x) _ _ _ _ _ E r Hr).
    clear. 
    assert (Hmap : forall i a n, Sorted.StronglySorted (fun x y => before (fst y) (snd y) x) (map (fun j => (i, j)) (seq a n))).
    { intros i a n; revert a. induction n as [|n IH]; intros a; simpl; constructor; auto.
      rewrite Forall_forall. intros x Hx. apply in_map_iff in Hx as (j & <- & Hj). apply in_seq in Hj.
      unfold before; cbn [fst snd]. lia. }
    assert (Happ : forall (l1 l2 : list pos), 
      Sorted.StronglySorted (fun x y => before (fst y) (snd y) x) l1 -> Sorted.StronglySorted (fun x y => before (fst y) (snd y) x) l2 ->
      (forall x y, In x l1 -> In y l2 -> before (fst y) (snd y) x) -> Sorted.StronglySorted (fun x y => before (fst y) (snd y) x) (l1 ++ l2)).
    { induction 1 as [|x l Hs IH Hx]; intros H2 Hc; simpl; auto. constructor.
      - apply IH; auto. intros; apply Hc; simpl; auto.
      - rewrite Forall_forall in *. intros y Hy. apply in_app_iff in Hy as [Hy|Hy]; auto. apply Hc; simpl; auto. }
    apply Happ; [apply Hmap| |].
    - unfold rng. generalize (row - (px + 1))%nat; generalize (px + 1)%nat; intros a n; revert a; induction n as [|n IH]; intros a; simpl; [constructor|].
      apply Happ; [apply Hmap|apply IH|]. intros x y Hx Hy. apply in_map_iff in Hx as (j & <- & Hj).
      destruct y as [yi yj]. apply in_prod_iff in Hy as [Hy _]. apply in_seq in Hy. unfold before; cbn [fst snd]. lia.
    - intros x y Hx Hy. apply in_map_iff in Hx as (j & <- & Hj).
      destruct y as [yi yj]. apply in_prod_iff in Hy as [Hy _]. apply in_rng in Hy. unfold before; cbn [fst snd]. lia. }
  assert (Hin : In r (l1 ++ q :: l2)) by (rewrite <- E; now apply in_win_order).
  apply in_app_iff in Hin as [?|[->|Hin]]; auto.
  - exfalso. unfold before in Hb. lia.
  - exfalso. pose proof (Hsorted _ _ _ E r Hin) as H. unfold before in H, Hb. lia.
Qed.

Lemma check_win_ok (s : mb) :
  m_row s = row -> m_column s = column -> m_board s = b -> rect row column (m_gb s) ->
  (forall q, inb row column q -> cell (m_gb s) q < 10 -> cell (m_gb s) q = cell b q) ->
  ptr_ok (m_gb s) (m_px s) (m_py s) ->
  exists s', check_win s = Ok s' /\
    ((safe_open (m_gb s) /\ s' = w_state s Win) \/
     (exists q, inb row column q /\ cell b q <> -1 /\ 10 <= cell (m_gb s) q /\
        s' = w_py (w_px s (fst q)) (snd q) /\ ptr_ok (m_gb s) (fst q) (snd q))).
Proof.
  intros Er Ec Eb Hr Heq [Hpx Hptr]. unfold check_win, is_win. rewrite Er, Ec, Eb.
  destruct (@win_scan_ok (m_gb s) (win_order row column (m_px s) (m_py s)) Hr Heq)
    as [[E H]|(l1 & q & l2 & El & E & H1 & H2 & H3)].
  { intros q Hq. now apply in_win_order in Hq. }
  - rewrite E. cbn [bind]. eexists. split; [reflexivity|]. left. split; auto.
    intros q Hq Hm. destruct (Nat.lt_ge_cases (fst q) (m_px s)) as [Hlt|Hge].
    + destruct (Hptr q Hq); [left; auto|contradiction|auto].
    + destruct (Nat.eq_dec (fst q) (m_px s)) as [Ef|Ef], (Nat.lt_ge_cases (snd q) (m_py s)) as [Hs|Hs].
      1: destruct (Hptr q Hq); [right; auto|contradiction|auto].
      all: destruct (H q); [apply in_win_order; auto; split; auto; unfold before; lia|contradiction|auto].
  - rewrite E. cbn [bind]. destruct q as [i j]. eexists. split; [reflexivity|]. right. exists (i, j).
    assert (Hq : inb row column (i, j)).
    { apply (@in_win_order (m_px s) (m_py s)); auto. rewrite El. apply in_app_iff. right. left. auto. }
    split; auto. split; auto. split; auto. split; [reflexivity|]. split; [apply Hq|].
    intros r Hr' Hb. destruct (Nat.lt_ge_cases (fst r) (m_px s)) as [Hlt|Hge]; [apply Hptr; auto; left; auto|].
    destruct (Nat.eq_dec (fst r) (m_px s)) as [Ef|Ef], (Nat.lt_ge_cases (snd r) (m_py s)) as [Hs|Hs].
    1: apply Hptr; auto; right; auto.
    all: apply H3; eapply win_order_prefix; eauto; unfold before; lia.
Qed.

Lemma nflags_upd g p v : rect row column g -> inb row column p ->
  (nflags (upd g p v) + (if (cell g p =? 11)%Z then 1 else 0) = nflags g + (if (v =? 11)%Z then 1 else 0))%nat.
Proof.
  intros Hr Hp. unfold nflags.
  pose proof (@count_point _ pos_eq_dec (fun q => cell (upd g p v) q =? 11) (fun q => cell g q =? 11)
    (positions row column) p (NoDup_positions _ _) (proj2 (in_positions _ _ _) Hp)) as H.
  cbv beta in H. rewrite (cell_upd_eq v Hr Hp) in H. apply H.
  intros x Hx. now rewrite cell_upd_neq by congruence.
Qed.
Lemma nflags_ext g g' : (forall q, inb row column q -> cell g q = 11 <-> cell g' q = 11) -> nflags g = nflags g'.
Proof.
  intros H. apply count_ext. intros q Hq. apply in_positions in Hq. specialize (H q Hq).
  destruct (Z.eqb_spec (cell g q) 11), (Z.eqb_spec (cell g' q) 11); tauto.
Qed.
Lemma nflags_zero g : nflags g = 0%nat -> forall q, inb row column q -> cell g q <> 11.
Proof.
  intros H q Hq. pose proof (count_zero_inv H (proj2 (in_positions _ _ _) Hq)) as E. cbv beta in E.
  now apply Z.eqb_neq.
Qed.
Lemma nflags_none g : (forall q, inb row column q -> cell g q <> 11) -> nflags g = 0%nat.
Proof.
  intros H. apply count_zero. intros q Hq. apply in_positions in Hq. apply Z.eqb_neq. auto.
Qed.
End View.

(** ** the click functions *)
Definition live (st : game_state) : Prop := st = Ready \/ st = PreFlaging \/ st = Playing.

Record InvF (row column : nat) (b g : board) (st : game_state) (fl pre px py : nat) : Prop := {
  i_legal : legal_board row column b;
  i_row : (0 < row)%nat;
  i_rect : rect row column g;
  i_live : live st -> forall q, inb row column q -> good b g q;
  i_pre : st = Ready \/ st = PreFlaging -> forall q, inb row column q -> cell g q = 10 \/ cell g q = 11;
  i_flag : live st -> fl = nflags row column g;
  i_preflag : st = PreFlaging -> (nflags row column g <= pre)%nat;
  i_ready : st = Ready -> nflags row column g = 0%nat;
  i_ptr : live st -> ptr_ok row column b g px py;
  i_unfin : live st -> (exists q, inb row column q /\ cell b q <> -1) ->
            exists q, inb row column q /\ cell b q <> -1 /\ 10 <= cell g q;
  i_shape : forall q, inb row column q ->
     good b g q \/ (cell g q = 14 /\ cell b q <> -1) \/ (cell g q = 15 /\ cell b q = -1);
  i_win : st = Win -> forall q, inb row column q -> cell b q <> -1 -> cell g q = cell b q;
  i_loss : st = Loss -> (exists q, inb row column q /\ cell b q <> -1) ->
           exists q, inb row column q /\ cell b q <> -1 /\ 10 <= cell g q;
  i_nodisp : st <> Display
}.
Definition Inv (s : mb) : Prop :=
  InvF (m_row s) (m_column s) (m_board s) (m_gb s) (m_state s) (m_flag s) (m_preflag s) (m_px s) (m_py s).

Lemma good_eq b g q row column : legal_board row column b -> inb row column q ->
  good b g q \/ (cell g q = 14 /\ cell b q <> -1) \/ (cell g q = 15 /\ cell b q = -1) ->
  cell g q < 10 -> cell g q = cell b q /\ cell b q <> -1.
Proof. intros Hl Hq [[H|[H|[H H']]]|[[H _]|[H _]]] Hlt; auto; lia. Qed.

Section Click.
Variables (s : mb).
Notation row := (m_row s). Notation column := (m_column s). Notation b := (m_board s). Notation g := (m_gb s).
Hypothesis Hleg : legal_board row column b.
Hypothesis Hrow : (0 < row)%nat.
Hypothesis Hrect : rect row column g.
Hypothesis Hgood : forall q, inb row column q -> good b g q.
Hypothesis Hptr : ptr_ok row column b g (m_px s) (m_py s).

Lemma cell_is_bbbv_ok x y : inb row column (x, y) ->
  cell_is_bbbv s x y = Ok (island_cellb row column b (x, y)).
Proof.
  intros Hp. unfold cell_is_bbbv. rewrite (get_ok (proj1 Hleg) Hp). cbn [bind].
  destruct (Z.leb_spec (cell b (x, y)) 0) as [H|H].
  - unfold island_cellb. destruct (Z.ltb_spec 0 (cell b (x, y))); [lia|reflexivity].
  - rewrite (findM_ok (@hits_zero _ _ b x y (proj1 Hleg))). cbn [bind].
    now rewrite island_zone.
Qed.

(** what [cell_is_op_completed] answers from an empty mark board *)
Lemma op_fresh x y : inb row column (x, y) -> cell b (x, y) = 0 ->
  exists r mark', cell_is_op_completed s x y (mkboard row column false) = Ok (r, mark') /\
    (if r : bool then forall q, connected (zero_cell row column b) (x, y) q -> cell g q <> 11
     else exists q, connected (zero_cell row column b) (x, y) q /\ cell g q = 11).
Proof.
  intros Hp Hz. unfold cell_is_op_completed.
  destruct (@op_completed_spec row column b g (mkboard row column false) (x, y)) as (r & mark' & E & _ & _ & _ & H); auto.
  { apply Hleg. } { apply rect_mkboard. } { now apply gcell_mkboard. }
  exists r, mark'. split; auto.
  assert (Hiff : forall q, connected (unseen row column b (mkboard row column false)) (x, y) q <->
                      connected (zero_cell row column b) (x, y) q).
  { intros q; split; apply connected_mono; [intros z []; auto|].
    intros z Hz'. split; auto. apply gcell_mkboard, Hz'. }
  destruct r.
  - intros q Hq. apply Hiff in Hq. now apply H.
  - destruct H as (q & Hq & E11). exists q. split; auto. now apply Hiff.
Qed.

Inductive left_result (x y : nat) : mb -> nat -> Prop :=
| LR_noop : cell g (x, y) <> 10 -> left_result x y (w_left s (S (m_left s))) 0
| LR_boom g' : cell g (x, y) = 10 -> cell b (x, y) = -1 ->
    refresh_board b g [(x, y)] = Ok g' ->
    left_result x y (w_state (w_gb (w_left s (S (m_left s))) g') Loss) 0
| LR_open g' (k : nat) s' : cell g (x, y) = 10 -> cell b (x, y) <> -1 ->
    refresh_board b g [(x, y)] = Ok g' ->
    (cell b (x, y) <> 0 -> k = if island_cellb row column b (x, y) then 1%nat else 0%nat) ->
    (cell b (x, y) = 0 ->
       (k = 1%nat /\ forall q, connected (zero_cell row column b) (x, y) q -> cell g q <> 11) \/
       (k = 0%nat /\ exists q, connected (zero_cell row column b) (x, y) q /\ cell g q = 11)) ->
    check_win (w_gb (w_ce (w_solved (w_left s (S (m_left s))) (m_solved s + k)%nat) (S (m_ce s))) g') = Ok s' ->
    left_result x y s' 2.

Lemma left_click_ok x y : inb row column (x, y) ->
  exists s' o, left_click s x y = Ok (s', Some o) /\ left_result x y s' o.
Proof.
  intros Hp. unfold left_click. cbn [m_gb w_left]. rewrite (get_ok Hrect Hp). cbn [bind].
  destruct (Z.eqb_spec (cell g (x, y)) 10) as [E10|E10]; cbn [negb].
  2:{ do 2 eexists. split; [reflexivity|]. now constructor. }
  cbn [m_board w_left]. rewrite (get_ok (proj1 Hleg) Hp). cbn [bind].
  assert (Hcl : forall p, In p [(x, y)] -> inb row column p /\ cell g p = 10).
  { intros p [<-|[]]; auto. }
  destruct (@refresh_live row column b Hleg Hrow g [(x, y)] Hrect Hgood Hcl)
    as (g' & Eg & Hr' & Hdec & Hob & Hom & Hs & Hl).
  destruct (Z.eqb_spec (cell b (x, y)) 0) as [E0|E0].
  - destruct (op_fresh Hp E0) as (r & mark' & Er & Hres).
    change (cell_is_op_completed (w_left s (S (m_left s))) x y) with (cell_is_op_completed s x y).
    cbn [m_row m_column w_left]. rewrite Er. cbn [bind fst].
    set (s1 := if r then _ else _). cbn zeta.
    assert (Es1 : s1 = w_solved (w_left s (S (m_left s))) (m_solved s + if r then 1 else 0)%nat).
    { unfold s1. destruct r; unfold w_solved, w_left; cbn [m_board m_gb m_flaged m_left m_right m_double m_ce m_flag m_solved m_row m_column m_mouse m_state m_px m_py m_preflag m_mid].
      - now rewrite Nat.add_1_r. - now rewrite Nat.add_0_r. }
    rewrite Es1. cbn [m_board m_gb w_ce w_solved w_left m_ce]. rewrite Eg. cbn [bind].
    destruct (@check_win_ok row column b Hleg Hrow
       (w_gb (w_ce (w_solved (w_left s (S (m_left s))) (m_solved s + if r then 1 else 0)%nat) (S (m_ce s))) g'))
       as (s' & Ew & Hw); try reflexivity; auto.
    { cbn [m_gb w_gb]. intros q Hq Hlt.
      destruct (Hs ltac:(intros p [<-|[]]; lia) q Hq) as [H1 H2].
      destruct (Hdec q Hq) as [HO|HO]; [apply H1; auto|]. rewrite (H2 HO) in *.
      eapply good_eq; eauto. }
    { cbn [m_gb w_gb m_px m_py w_ce w_solved w_left]. eapply ptr_mono; [exact Hptr|]. intros q Hq Hlt.
      destruct (Hs ltac:(intros p [<-|[]]; lia) q Hq) as [H1 H2].
      destruct (Hdec q Hq) as [HO|HO]; [|now rewrite (H2 HO)].
      exfalso. apply Hob in HO. lia. }
    rewrite Ew. cbn [bind]. do 2 eexists. split; [reflexivity|].
    eapply LR_open; [exact E10|lia|exact Eg| | |exact Ew]; [intros; contradiction|].
    intros _. destruct r; [left|right]; split; auto.
  - destruct (Z.eqb_spec (cell b (x, y)) (-1)) as [Em|Em].
    { cbn [m_board m_gb w_left]. rewrite Eg. cbn [bind]. do 2 eexists. split; [reflexivity|]. now constructor. }
    cbn [m_board m_gb w_left]. rewrite Eg. cbn [bind].
    change (cell_is_bbbv (w_gb (w_left s (S (m_left s))) g') x y) with (cell_is_bbbv s x y).
    rewrite (cell_is_bbbv_ok Hp). cbn [bind].
    set (k := island_cellb row column b (x, y)).
    set (s1 := if k then _ else _). cbn zeta.
    assert (Es1 : w_ce s1 (S (m_ce s1)) = w_gb (w_ce (w_solved (w_left s (S (m_left s))) (m_solved s + if k then 1 else 0)%nat) (S (m_ce s))) g').
    { unfold s1. destruct k; unfold w_solved, w_left, w_ce, w_gb; cbn [m_board m_gb m_flaged m_left m_right m_double m_ce m_flag m_solved m_row m_column m_mouse m_state m_px m_py m_preflag m_mid].
      - now rewrite Nat.add_1_r. - now rewrite Nat.add_0_r. }
    rewrite Es1.
    destruct (@check_win_ok row column b Hleg Hrow
       (w_gb (w_ce (w_solved (w_left s (S (m_left s))) (m_solved s + if k then 1 else 0)%nat) (S (m_ce s))) g'))
       as (s' & Ew & Hw); try reflexivity; auto.
    { cbn [m_gb w_gb]. intros q Hq Hlt.
      destruct (Hs ltac:(intros p [<-|[]]; lia) q Hq) as [H1 H2].
      destruct (Hdec q Hq) as [HO|HO]; [apply H1; auto|]. rewrite (H2 HO) in *.
      eapply good_eq; eauto. }
    { cbn [m_gb w_gb m_px m_py w_ce w_solved w_left]. eapply ptr_mono; [exact Hptr|]. intros q Hq Hlt.
      destruct (Hs ltac:(intros p [<-|[]]; lia) q Hq) as [H1 H2].
      destruct (Hdec q Hq) as [HO|HO]; [|now rewrite (H2 HO)].
      exfalso. apply Hob in HO. lia. }
    rewrite Ew. cbn [bind]. do 2 eexists. split; [reflexivity|].
    eapply LR_open; [exact E10|lia|exact Eg| | |exact Ew]; [intros _; reflexivity|intros; contradiction].
Qed.

(** [right_click] *)
Inductive right_result (x y : nat) : mb -> nat -> Prop :=
| RR_noop : cell g (x, y) < 10 -> right_result x y (w_right s (S (m_right s))) 0
| RR_flag fl' ce' : cell g (x, y) = 10 ->
    (ce' = m_ce s \/ ce' = S (m_ce s)) ->
    (ce' = S (m_ce s) <-> cell b (x, y) = -1 /\ ~ In (x, y) (m_flaged s)) ->
    (forall q, In q fl' <-> In q (m_flaged s) \/ (q = (x, y) /\ cell b (x, y) = -1)) ->
    right_result x y
      (w_flaged (w_ce (w_flag (w_gb (w_right s (S (m_right s))) (upd g (x, y) 11)) (S (m_flag s))) ce') fl') 1
| RR_unflag : cell g (x, y) = 11 ->
    right_result x y (w_flag (w_gb (w_right s (S (m_right s))) (upd g (x, y) 10)) (m_flag s - 1)) 1.

Lemma nflags_pos x y : inb row column (x, y) -> cell g (x, y) = 11 -> (1 <= nflags row column g)%nat.
Proof.
  intros Hp E. destruct (nflags row column g) eqn:En; [|lia]. exfalso.
  now apply (nflags_zero En Hp).
Qed.

Lemma right_click_ok x y : inb row column (x, y) -> m_flag s = nflags row column g ->
  exists s' o, right_click s x y = Ok (s', Some o) /\ right_result x y s' o.
Proof.
  intros Hp Hfl. unfold right_click. cbn [m_gb w_right]. rewrite (get_ok Hrect Hp). cbn [bind].
  destruct (Z.ltb_spec (cell g (x, y)) 10) as [Hlt|Hge].
  { do 2 eexists. split; [reflexivity|]. now constructor. }
  cbn [m_board w_right]. rewrite (get_ok (proj1 Hleg) Hp). cbn [bind].
  assert (Hcase : cell g (x, y) = 10 \/ cell g (x, y) = 11).
  { destruct (Hgood Hp) as [?|[?|[E1 E2]]]; auto. pose proof (safe_range Hleg Hrow Hp E2). lia. }
  assert (Hun : cell g (x, y) = 11 -> usub (m_flag s) 1 = Ok (m_flag s - 1)%nat).
  { intros E. pose proof (nflags_pos Hp E). unfold usub. destruct (Nat.leb_spec 1 (m_flag s)); auto; lia. }
  destruct (Z.eqb_spec (cell b (x, y)) (-1)) as [Em|Em]; cbn [negb];
  (destruct Hcase as [E|E]; rewrite E; cbn [Z.eqb Pos.eqb]; rewrite (set_ok _ Hrect Hp); cbn [bind m_flag w_gb w_right]).
  - do 2 eexists. split; [reflexivity|]. cbn [m_flaged w_flag w_gb w_right m_ce].
    destruct (existsb (posb (x, y)) (m_flaged s)) eqn:Ex.
    + assert (Hin : In (x, y) (m_flaged s)).
      { apply existsb_exists in Ex as (q & Hq & Eq). destruct (posb_spec (x, y) q); [congruence|discriminate]. }
      cbn [m_flaged w_flag w_gb w_right m_ce].
      apply (@RR_flag x y ((x, y) :: m_flaged s) (m_ce s)); auto.
      * split; [lia|]. intros [_ H]. contradiction.
      * intros q. simpl. intuition (subst; auto).
    + assert (Hin : ~ In (x, y) (m_flaged s)).
      { intros Hin. assert (existsb (posb (x, y)) (m_flaged s) = true); [|congruence].
        apply existsb_exists. exists (x, y). split; auto. apply posb_refl. }
      apply (@RR_flag x y ((x, y) :: m_flaged s) (S (m_ce s))); auto.
      * split; auto.
      * intros q. simpl. intuition (subst; auto).
  - rewrite (Hun E). cbn [bind]. do 2 eexists. split; [reflexivity|]. now constructor.
  - do 2 eexists. split; [reflexivity|].
    apply (@RR_flag x y (m_flaged s) (m_ce s)); auto.
    + split; [lia|]. intros [? _]. contradiction.
    + intros q. intuition (subst; auto).
  - rewrite (Hun E). cbn [bind]. do 2 eexists. split; [reflexivity|]. now constructor.
Qed.

(** [op_num_around_cell] *)
Notation Z0 := (zero_cell row column b).
Definition clean (q : pos) : Prop := forall r, connected Z0 q r -> cell g r <> 11.
(** a covered zero around (x, y) *)
Definition hot (x y : nat) (q : pos) : Prop :=
  inb row column q /\ near (x, y) q /\ cell g q = 10 /\ cell b q = 0.

Lemma op_num_ok x y :
  exists n us, op_num_around_cell s x y = Ok n /\ length us = n /\
    (forall u, In u us -> hot x y u) /\
    (forall t, hot x y t -> clean t -> exists u, In u us /\ connected Z0 u t) /\
    ((forall q, Z0 q -> cell g q <> 11) -> NoDup us /\
       forall u1 u2, In u1 us -> In u2 us -> connected Z0 u1 u2 -> u1 = u2).
Proof.
  unfold op_num_around_cell.
  match goal with |- context [foldM ?f _ _] => set (F := f) end.
  assert (Hbr : rect row column b) by apply Hleg.
  destruct (@foldM_inv _ _ F (fun done '(n, mark) => rect row column mark /\
     exists us, length us = n /\ (forall u, In u us -> hot x y u) /\
       (forall t, In t done -> hot x y t -> clean t -> exists u, In u us /\ connected Z0 u t) /\
       (forall q, Z0 q -> clean q -> gcell false mark q = true <-> exists u, In u us /\ connected Z0 u q) /\
       ((forall q, Z0 q -> cell g q <> 11) -> NoDup us /\
          forall u1 u2, In u1 us -> In u2 us -> connected Z0 u1 u2 -> u1 = u2))
     (zone row column x y) (0%nat, mkboard row column false)) as ([n mark] & E & Hr & us & H1 & H2 & H3 & H4 & H5).
  - split; [apply rect_mkboard|]. exists []. split; auto. split; [intros ? []|]. split; [intros ? []|].
    split; [|intros; split; [constructor|intros ? ? []]].
    intros q [Hq _] _. rewrite gcell_mkboard by auto. split; [discriminate|]. intros (u & [] & _).
  - intros done [i j] rest [n mark] El (Hr & us & H1 & H2 & H3 & H4 & H5).
    assert (Hq : inb row column (i, j) /\ near (x, y) (i, j)).
    { apply in_zone. rewrite El. apply in_app_iff. right. left. auto. }
    destruct Hq as [Hq Hn]. unfold F. rewrite (get_ok Hrect Hq). cbn [bind].
    assert (Hskip : (hot x y (i, j) -> clean (i, j) -> exists u, In u us /\ connected Z0 u (i, j)) ->
      exists s' : nat * list (list bool), Ok (n, mark) = Ok s' /\ (let '(n0, mark0) := s' in
        rect row column mark0 /\
        exists us, length us = n0 /\ (forall u, In u us -> hot x y u) /\
       (forall t, In t (done ++ [(i, j)]) -> hot x y t -> clean t -> exists u, In u us /\ connected Z0 u t) /\
       (forall q, Z0 q -> clean q -> gcell false mark0 q = true <-> exists u, In u us /\ connected Z0 u q) /\
       ((forall q, Z0 q -> cell g q <> 11) -> NoDup us /\
          forall u1 u2, In u1 us -> In u2 us -> connected Z0 u1 u2 -> u1 = u2))).
    { intros Hnew. exists (n, mark). split; auto. split; auto. exists us. split; auto. split; auto. split; [|split; auto].
      intros t Ht. apply in_app_iff in Ht as [Ht|[<-|[]]]; auto. }
    destruct (Z.eqb_spec (cell g (i, j)) 10) as [E10|E10].
    2:{ apply Hskip. intros (_ & _ & ? & _); contradiction. }
    rewrite (get_ok Hbr Hq). cbn [bind].
    destruct (Z.eqb_spec (cell b (i, j)) 0) as [E0|E0].
    2:{ apply Hskip. intros (_ & _ & _ & ?); contradiction. }
    rewrite (get_gok false Hr Hq). cbn [bind].
    assert (Hz : Z0 (i, j)) by (split; auto).
    destruct (gcell false mark (i, j)) eqn:Em; cbn [negb].
    { apply Hskip. intros _ Hc. apply H4; auto. }
    clear Hskip. unfold cell_is_op_completed.
    destruct (@op_completed_spec row column b g mark (i, j)) as (r & mark' & Er & Hr' & Hmo & Hmk & Hres); auto.
    rewrite Er. cbn [bind]. eexists. split; [reflexivity|]. split; auto.
    assert (Hreach : forall q, connected (unseen row column b mark) (i, j) q -> connected Z0 (i, j) q).
    { intros q. apply connected_mono. intros z []; auto. }
    assert (Hcc : forall q r, connected Z0 q r -> clean q -> clean r).
    { intros q r' Hqr Hc z Hz'. apply Hc. eapply connected_trans; eauto. }
    assert (Hclean : clean (i, j) -> r = true /\ forall q, connected Z0 (i, j) q -> connected (unseen row column b mark) (i, j) q).
    { intros Hc.
      assert (Hun : forall q, connected Z0 (i, j) q -> gcell false mark q = false).
      { intros q Hcq. destruct (gcell false mark q) eqn:Eq; auto. exfalso.
        apply (H4 q (connected_r Hcq) (Hcc _ _ Hcq Hc)) in Eq as (u & Hu & Huq).
        assert (gcell false mark (i, j) = true); [|congruence]. apply H4; auto.
        exists u. split; auto. eapply connected_trans; eauto. now apply connected_sym. }
      assert (Hall : forall q, connected Z0 (i, j) q -> connected (unseen row column b mark) (i, j) q).
      { intros q Hcq. remember (i, j) as p eqn:Ep. clear - Hcq Hun. induction Hcq as [p Hp|p q r Hpq IH Hn Hr].
        - constructor. split; auto. apply Hun. now constructor.
        - apply conn_step with q; auto. split; auto. apply Hun. apply conn_step with q; auto. }
      split; auto. destruct r; auto. exfalso. destruct Hres as (q & Hq' & E11).
      apply (Hc q); auto. }
    exists (if r then (i, j) :: us else us). split; [destruct r; simpl; lia|]. split; [|split; [|split]].
    + intros u Hu. destruct r; auto. destruct Hu as [<-|Hu]; auto. split; auto.
    + intros t Ht Hh Hc. apply in_app_iff in Ht as [Ht|[<-|[]]].
      * destruct (H3 t Ht Hh Hc) as (u & Hu & Huc). exists u. split; auto. destruct r; simpl; auto.
      * destruct (Hclean Hc) as [-> _]. exists (i, j). split; [left; auto|]. now constructor.
    + intros q Hq' Hc. split.
      * intros Eq. destruct (Hmk q) as [E'|E']; [apply Hq'|auto| |].
        -- apply H4 in E' as (u & Hu & Huc); auto. exists u. split; auto. destruct r; simpl; auto.
        -- assert (Hcij : clean (i, j)).
           { apply (Hcc q); auto. apply connected_sym. auto. }
           destruct (Hclean Hcij) as [-> _]. exists (i, j). split; [left; auto|auto].
      * intros (u & Hu & Huc). destruct r.
        -- destruct Hu as [<-|Hu].
           ++ assert (Hcij : clean (i, j)).
              { apply (Hcc q); auto. now apply connected_sym. }
              destruct (Hclean Hcij) as [_ Hall]. apply Hres. auto.
           ++ apply Hmo. apply H4; auto. exists u; auto.
        -- apply Hmo. apply H4; auto. exists u; auto.
    + intros Hnf. destruct (H5 Hnf) as [Hnd Huq]. 
      assert (Hcl : clean (i, j)) by (intros r' Hr0; apply Hnf; eapply connected_r; eauto).
      destruct (Hclean Hcl) as [-> _].
      assert (Hfresh : forall u, In u us -> ~ connected Z0 u (i, j)).
      { intros u Hu Hc. assert (gcell false mark (i, j) = true); [|congruence]. apply H4; eauto. }
      split.
      * constructor; auto. intros Hi. apply (Hfresh _ Hi). now constructor.
      * intros u1 u2 [<-|I1] [<-|I2] Hc; auto.
        -- exfalso. apply (Hfresh u2 I2). now apply connected_sym.
        -- exfalso. now apply (Hfresh u1 I1).
  - exists n, us. rewrite E. cbn [bind fst]. split; auto. split; auto. split; auto. split; [|exact H5].
    intros t Ht Hc. apply H3; auto. apply in_zone. split; apply Ht.
Qed.

(** [chord_scan] *)
Definition chord_cell (x y : nat) (q : pos) : bool := negb (posb (x, y) q) && (cell g q =? 10).
Lemma chord_scan_ok x y :
  exists cells, chord_scan s x y =
      Ok (cells, Z.of_nat (adj_count row column (fun q => cell g q =? 11) (x, y)),
          count (fun q => chord_cell x y q && island_cellb row column b q) (zone row column x y)) /\
    cells = filter (chord_cell x y) (zone row column x y).
Proof.
  exists (filter (chord_cell x y) (zone row column x y)). split; auto. unfold chord_scan.
  match goal with |- context [foldM ?f _ _] => set (F := f) end.
  destruct (@foldM_inv _ _ F (fun done r =>
     r = (filter (chord_cell x y) done,
          Z.of_nat (count (fun q => negb (posb (x, y) q) && (cell g q =? 11)) done),
          count (fun q => chord_cell x y q && island_cellb row column b q) done))
     (zone row column x y) ([], 0, 0%nat)) as (r & E & Hr).
  - reflexivity.
  - intros done [i j] rest r El ->.
    assert (Hq : inb row column (i, j)).
    { apply (@in_zone row column x y). rewrite El. apply in_app_iff. right. left. auto. }
    unfold F. rewrite filter_app, !count_app. cbn [filter]. rewrite !count_cons, !count_nil.
    assert (Ec : chord_cell x y (i, j) = negb (posb (i, j) (x, y)) && (cell g (i, j) =? 10)).
    { unfold chord_cell. now rewrite (posb_sym (x, y) (i, j)). }
    rewrite Ec. rewrite (posb_sym (x, y) (i, j)).
    replace (negb (i =? x)%nat || negb (j =? y)%nat) with (negb (posb (i, j) (x, y)))
      by (unfold posb; cbn [fst snd]; destruct (i =? x)%nat, (j =? y)%nat; reflexivity).
    destruct (posb (i, j) (x, y)); cbn [negb andb].
    { eexists. split; [reflexivity|]. rewrite app_nil_r, !Nat.add_0_r. reflexivity. }
    rewrite (get_ok Hrect Hq). cbn [bind].
    destruct (Z.eqb_spec (cell g (i, j)) 10) as [E10|E10]; cbn [andb].
    + rewrite E10. cbn [Z.eqb Pos.eqb].
      rewrite (get_ok (proj1 Hleg) Hq). cbn [bind].
      rewrite !Nat.add_0_r.
      destruct (Z.ltb_spec 0 (cell b (i, j))) as [Hpos|Hnp].
      * rewrite (cell_is_bbbv_ok Hq). cbn [bind]. eexists. split; [reflexivity|].
        f_equal. destruct (island_cellb row column b (i, j)); [now rewrite Nat.add_1_r|now rewrite Nat.add_0_r].
      * eexists. split; [reflexivity|]. f_equal.
        assert (Ei : island_cellb row column b (i, j) = false).
        { unfold island_cellb. destruct (Z.ltb_spec 0 (cell b (i, j))); [lia|reflexivity]. }
        rewrite Ei. now rewrite Nat.add_0_r.
    + rewrite app_nil_r. eexists. split; [reflexivity|]. f_equal; [f_equal|now rewrite !Nat.add_0_r].
      rewrite Nat.add_0_r. destruct (cell g (i, j) =? 11); [rewrite Nat.add_1_r, Nat2Z.inj_succ; reflexivity|now rewrite Nat.add_0_r].
  - rewrite E, Hr. now rewrite adj_count_zone.
Qed.

(** The chord at (x, y) is effective: an open number from 1 to 7 with exactly that many flags
    around it, and at least one covered neighbour. *)
Definition chord_ready (x y : nat) : Prop :=
  1 <= cell g (x, y) <= 7 /\
  cell g (x, y) = Z.of_nat (adj_count row column (fun q => cell g q =? 11) (x, y)) /\
  exists q, inb row column q /\ adj (x, y) q /\ cell g q = 10.
(** the cells it opens *)
Definition chord_cells (x y : nat) : list pos := filter (chord_cell x y) (zone row column x y).
Lemma in_chord_cells x y q : In q (chord_cells x y) <-> inb row column q /\ adj (x, y) q /\ cell g q = 10.
Proof.
  unfold chord_cells, chord_cell. rewrite filter_In, in_zone, andb_true_iff, Z.eqb_eq. unfold adj.
  destruct (posb_spec (x, y) q); simpl; intuition; try congruence; try discriminate.
Qed.

Inductive chord_result (x y : nat) : mb -> nat -> Prop :=
| CR_noop : ~ chord_ready x y -> chord_result x y (w_double s (S (m_double s))) 0
| CR_open g' (n : nat) us s' : chord_ready x y ->
    refresh_board b g (chord_cells x y) = Ok g' ->
    length us = n ->
    (forall u, In u us -> hot x y u) ->
    (forall t, hot x y t -> clean t -> exists u, In u us /\ connected Z0 u t) ->
    ((forall q, Z0 q -> cell g q <> 11) -> NoDup us /\
       forall u1 u2, In u1 us -> In u2 us -> connected Z0 u1 u2 -> u1 = u2) ->
    check_win (w_gb (w_solved (w_ce (w_state (w_double s (S (m_double s)))
          (if existsb (is_mine b) (chord_cells x y) then Loss else m_state s)) (S (m_ce s)))
          (m_solved s + count (fun q => chord_cell x y q && island_cellb row column b q) (zone row column x y) + n)%nat) g')
      = Ok s' ->
    chord_result x y s' 3.

Lemma w_state_same (t : mb) : w_state t (m_state t) = t.
Proof. now destruct t. Qed.

Lemma chording_click_ok x y : inb row column (x, y) ->
  exists s' o, chording_click s x y = Ok (s', Some o) /\ chord_result x y s' o.
Proof.
  intros Hp. unfold chording_click. cbn [m_gb w_double]. rewrite (get_ok Hrect Hp). cbn [bind].
  destruct ((cell g (x, y) =? 0) || (8 <=? cell g (x, y))) eqn:Ew.
  { do 2 eexists. split; [reflexivity|]. constructor. intros (H & _). lia. }
  change (chord_scan (w_double s (S (m_double s))) x y) with (chord_scan s x y).
  destruct (@chord_scan_ok x y) as (cells & E & ->). rewrite E. cbn [bind].
  assert (Hrange : 1 <= cell g (x, y) <= 7).
  { destruct (Hgood Hp) as [H|[H|[H H']]]; try lia. pose proof (safe_range Hleg Hrow Hp H'). lia. }
  fold (chord_cells x y).
  destruct ((Z.of_nat (adj_count row column (fun q => cell g q =? 11) (x, y)) =? cell g (x, y)) &&
            negb (length (chord_cells x y) =? 0)%nat) eqn:Er.
  2:{ do 2 eexists. split; [reflexivity|]. constructor. intros (_ & H1 & q & Hq & Ha & H10).
      assert (Hi : In q (chord_cells x y)) by (apply in_chord_cells; auto).
      destruct (chord_cells x y); [destruct Hi|]. rewrite <- H1, Z.eqb_refl in Er. discriminate. }
  assert (Hready : chord_ready x y).
  { split; auto. apply andb_true_iff in Er as [Er1 Er2]. apply Z.eqb_eq in Er1.
    split; [congruence|]. destruct (chord_cells x y) as [|q l] eqn:El; [discriminate|].
    exists q. apply in_chord_cells. rewrite El. left; auto. }
  clear Er Ew.
  assert (Efold : foldM (fun s0 '(i, j) => let* v := get (m_board s0) i j in
             Ok (if v =? -1 then w_state s0 Loss else s0)) (chord_cells x y) (w_double s (S (m_double s)))
          = Ok (w_state (w_double s (S (m_double s)))
              (if existsb (is_mine b) (chord_cells x y) then Loss else m_state s))).
  { assert (Hin : forall q, In q (chord_cells x y) -> inb row column q) by (intros q Hq; now apply in_chord_cells in Hq).
    generalize dependent (chord_cells x y). clear E.
    assert (Hgen : forall l st, (forall q, In q l -> inb row column q) ->
       foldM (fun s0 '(i, j) => let* v := get (m_board s0) i j in
             Ok (if v =? -1 then w_state s0 Loss else s0)) l (w_state (w_double s (S (m_double s))) st)
       = Ok (w_state (w_double s (S (m_double s))) (if existsb (is_mine b) l then Loss else st))).
    { induction l as [|[i j] l IH]; intros st Hl; [reflexivity|]. cbn [foldM].
      cbn [m_board w_state w_double]. rewrite (get_ok (proj1 Hleg)) by (apply Hl; left; auto). cbn [bind].
      cbn [existsb]. change (is_mine b (i, j)) with (cell b (i, j) =? -1). destruct (cell b (i, j) =? -1); cbn [orb].
      - change (w_state (w_state (w_double s (S (m_double s))) st) Loss) with (w_state (w_double s (S (m_double s))) Loss).
        rewrite IH by (intros; apply Hl; right; auto). now destruct (existsb _ l).
      - apply IH. intros; apply Hl; right; auto. }
    intros l Hl. rewrite <- (Hgen l (m_state s) Hl). f_equal. }
  rewrite Efold. cbn [bind].
  set (st := if existsb _ _ then Loss else m_state s).
  match goal with |- context [op_num_around_cell ?t x y] => change (op_num_around_cell t x y) with (op_num_around_cell s x y) end.
  destruct (@op_num_ok x y) as (n & us & En & Hlen & Hu1 & Hu2 & Hu3). rewrite En. cbn [bind].
  cbn [m_board m_gb w_solved w_ce w_state w_double m_solved m_ce].
  assert (Hcl : forall p, In p (chord_cells x y) -> inb row column p /\ cell g p = 10).
  { intros p Hq. now apply in_chord_cells in Hq. }
  destruct (@refresh_live row column b Hleg Hrow g (chord_cells x y) Hrect Hgood Hcl)
    as (g' & Eg & Hr' & Hdec & Hob & Hom & Hs & Hl).
  rewrite Eg. cbn [bind].
  match goal with |- context [check_win ?t] => set (s1 := t) end.
  destruct (@check_win_ok row column b Hleg Hrow s1) as (s' & Ew & Hw); try reflexivity; auto.
  { unfold s1; cbn [m_gb w_gb]. intros q Hq Hlt.
    destruct (existsb (is_mine b) (chord_cells x y)) eqn:Em.
    - apply existsb_exists in Em as (m & Hm & Em). apply Z.eqb_eq in Em.
      destruct (Hl (ex_intro _ m (conj Hm Em)) q Hq) as [H1 H2].
      destruct (Hdec q Hq) as [HO|HO].
      + rewrite (H1 HO) in *. unfold shown in *. destruct (cell b q <? 0); [lia|auto].
      + rewrite (H2 HO) in *. destruct ((cell g q =? 11) && negb (is_mine b q)); [lia|].
        eapply good_eq; eauto.
    - assert (Hsf : forall p, In p (chord_cells x y) -> cell b p <> -1).
      { intros p Hi Em'. assert (existsb (is_mine b) (chord_cells x y) = true); [|congruence].
        apply existsb_exists. exists p. split; auto. now apply Z.eqb_eq. }
      destruct (Hs Hsf q Hq) as [H1 H2].
      destruct (Hdec q Hq) as [HO|HO]; [apply H1; auto|]. rewrite (H2 HO) in *.
      eapply good_eq; eauto. }
  { unfold s1; cbn [m_gb w_gb m_px m_py w_ce w_solved w_state w_double]. eapply ptr_mono; [exact Hptr|]. intros q Hq Hlt.
    assert (HO : ~ opens row column b g (chord_cells x y) q) by (intros HO; apply Hob in HO; lia).
    destruct (existsb (is_mine b) (chord_cells x y)) eqn:Em.
    - apply existsb_exists in Em as (m & Hm & Em). apply Z.eqb_eq in Em.
      destruct (Hl (ex_intro _ m (conj Hm Em)) q Hq) as [H1 H2]. rewrite (H2 HO).
      destruct (Z.eqb_spec (cell g q) 11); [lia|auto].
    - assert (Hsf : forall p, In p (chord_cells x y) -> cell b p <> -1).
      { intros p Hi Em'. assert (existsb (is_mine b) (chord_cells x y) = true); [|congruence].
        apply existsb_exists. exists p. split; auto. now apply Z.eqb_eq. }
      destruct (Hs Hsf q Hq) as [H1 H2]. now rewrite (H2 HO). }
  rewrite Ew. cbn [bind]. do 2 eexists. split; [reflexivity|].
  eapply CR_open; eauto.
Qed.
End Click.

(** ** preservation of the invariant *)
Lemma inv_live s : Inv s -> live (m_state s) ->
  legal_board (m_row s) (m_column s) (m_board s) /\ (0 < m_row s)%nat /\ rect (m_row s) (m_column s) (m_gb s) /\
  (forall q, inb (m_row s) (m_column s) q -> good (m_board s) (m_gb s) q) /\
  ptr_ok (m_row s) (m_column s) (m_board s) (m_gb s) (m_px s) (m_py s).
Proof. intros [] Hl. auto 10. Qed.

Lemma opened_inv s clicks g' s1 s' :
  Inv s -> m_state s = Playing ->
  (forall p, In p clicks -> inb (m_row s) (m_column s) p /\ cell (m_gb s) p = 10) ->
  refresh_board (m_board s) (m_gb s) clicks = Ok g' ->
  m_row s1 = m_row s -> m_column s1 = m_column s -> m_board s1 = m_board s -> m_gb s1 = g' ->
  m_px s1 = m_px s -> m_py s1 = m_py s -> m_flag s1 = m_flag s ->
  m_state s1 = (if existsb (is_mine (m_board s)) clicks then Loss else Playing) ->
  check_win s1 = Ok s' ->
  Inv s' /\
  ((safe_open (m_row s) (m_column s) (m_board s) g' /\ s' = w_state s1 Win) \/
   (~ safe_open (m_row s) (m_column s) (m_board s) g' /\ exists px py, s' = w_py (w_px s1 px) py)).
Proof.
  intros HI Hst Hcl Eg Er Ec Eb Eg1 Epx Epy Efl Est Ew.
  destruct (inv_live HI) as (Hleg & Hrow & Hrect & Hgood & Hptr); [rewrite Hst; unfold live; auto|].
  set (row := m_row s) in *. set (column := m_column s) in *. set (b := m_board s) in *. set (g := m_gb s) in *.
  destruct (@refresh_live row column b Hleg Hrow g clicks Hrect Hgood Hcl)
    as (g'' & Eg'' & Hr' & Hdec & Hob & Hom & Hs & Hl).
  rewrite Eg in Eg''. injection Eg'' as <-.
  assert (Hshape : forall q, inb row column q ->
     good b g' q \/ (cell g' q = 14 /\ cell b q <> -1) \/ (cell g' q = 15 /\ cell b q = -1)).
  { intros q Hq. destruct (existsb (is_mine b) clicks) eqn:Em.
    - apply existsb_exists in Em as (m & Hm & Em). apply Z.eqb_eq in Em.
      destruct (Hl (ex_intro _ m (conj Hm Em)) q Hq) as [H1 H2].
      destruct (Hdec q Hq) as [HO|HO].
      + rewrite (H1 HO). unfold shown. pose proof (legal_ge Hleg Hrow Hq).
        destruct (Z.ltb_spec (cell b q) 0); [right; right; lia|]. left. right. right.
        rewrite (H1 HO). unfold shown. destruct (Z.ltb_spec (cell b q) 0); [lia|]. split; auto. lia.
      + unfold good. rewrite (H2 HO). unfold is_mine.
        destruct (Z.eqb_spec (cell g q) 11) as [E11|E11], (Z.eqb_spec (cell b q) (-1)) as [Eb1|Eb1]; cbn [andb negb].
        * rewrite E11. auto. * right. left. auto.
        * left. apply Hgood; auto. * left. apply Hgood; auto.
    - assert (Hsf : forall p, In p clicks -> cell b p <> -1).
      { intros p Hi Em'. assert (existsb (is_mine b) clicks = true); [|congruence].
        apply existsb_exists. exists p. split; auto. now apply Z.eqb_eq. }
      destruct (Hs Hsf q Hq) as [H1 H2].
      destruct (Hdec q Hq) as [HO|HO]; left; unfold good; [right; right; auto|]. rewrite (H2 HO). apply Hgood; auto. }
  assert (Hlow : forall q, inb row column q -> cell g' q < 10 -> cell g' q = cell b q).
  { intros q Hq Hlt. eapply good_eq; eauto. }
  assert (Hmono : forall q, inb row column q -> cell g q < 10 -> cell g' q < 10).
  { intros q Hq Hlt.
    assert (HO : ~ opens row column b g clicks q) by (intros HO; apply Hob in HO; lia).
    destruct (existsb (is_mine b) clicks) eqn:Em.
    - apply existsb_exists in Em as (m & Hm & Em). apply Z.eqb_eq in Em.
      destruct (Hl (ex_intro _ m (conj Hm Em)) q Hq) as [H1 H2]. rewrite (H2 HO).
      destruct (Z.eqb_spec (cell g q) 11); [lia|auto].
    - assert (Hsf : forall p, In p clicks -> cell b p <> -1).
      { intros p Hi Em'. assert (existsb (is_mine b) clicks = true); [|congruence].
        apply existsb_exists. exists p. split; auto. now apply Z.eqb_eq. }
      destruct (Hs Hsf q Hq) as [H1 H2]. now rewrite (H2 HO). }
  destruct (@check_win_ok row column b Hleg Hrow s1) as (s2 & Ew2 & Hw); auto.
  { now rewrite Eg1. } { now rewrite Eg1. }
  { rewrite Eg1, Epx, Epy. eapply ptr_mono; eauto. }
  rewrite Ew in Ew2. injection Ew2 as <-. rewrite Eg1 in Hw.
  destruct Hw as [[Hso ->]|(q & Hq & Hbq & Hgq & -> & Hpq)].
  - split; [|left; auto].
    constructor; cbn [m_row m_column m_board m_gb m_state m_flag m_preflag m_px m_py w_state];
      rewrite ?Er, ?Ec, ?Eb, ?Eg1; auto; try (unfold live; intuition congruence); try congruence.
  - assert (Hnso : ~ safe_open row column b g') by (intros H; specialize (H q Hq Hbq); lia).
    split; [|right; split; eauto].
    constructor; cbn [m_row m_column m_board m_gb m_state m_flag m_preflag m_px m_py w_px w_py];
      rewrite ?Er, ?Ec, ?Eb, ?Eg1, ?Est, ?Efl; auto.
    + fold row column b. intros Hlv q' Hq'. destruct (existsb (is_mine b) clicks) eqn:Em; [unfold live in Hlv; intuition congruence|].
      assert (Hsf : forall p, In p clicks -> cell b p <> -1).
      { intros p Hi Em'. assert (existsb (is_mine b) clicks = true); [|congruence].
        apply existsb_exists. exists p. split; auto. now apply Z.eqb_eq. }
      destruct (Hs Hsf q' Hq') as [H1 H2].
      destruct (Hdec q' Hq') as [HO|HO]; unfold good; [right; right; auto|]. rewrite (H2 HO). apply Hgood; auto.
    + destruct (existsb _ _); intuition congruence.
    + fold row column b. intros Hlv. destruct (existsb (is_mine b) clicks) eqn:Em; [unfold live in Hlv; intuition congruence|].
      assert (Hsf : forall p, In p clicks -> cell b p <> -1).
      { intros p Hi Em'. assert (existsb (is_mine b) clicks = true); [|congruence].
        apply existsb_exists. exists p. split; auto. now apply Z.eqb_eq. }
      rewrite (i_flag HI) by (rewrite Hst; unfold live; auto). fold row column g.
      apply nflags_ext. intros q' Hq'. destruct (Hs Hsf q' Hq') as [H1 H2].
      destruct (Hdec q' Hq') as [HO|HO]; [|now rewrite (H2 HO)].
      destruct (H1 HO) as [E1 E2]. pose proof (safe_range Hleg Hrow Hq' E2). destruct (Hob _ HO). lia.
    + destruct (existsb _ _); intuition congruence.
    + destruct (existsb _ _); intuition congruence.
    + intros _ _. eauto.
    + destruct (existsb _ _); intuition congruence.
    + intros _ _. eauto.
    + destruct (existsb _ _); congruence.
Qed.

Lemma left_inv s x y s' o : Inv s -> m_state s = Playing -> inb (m_row s) (m_column s) (x, y) ->
  left_result s x y s' o -> Inv s'.
Proof.
  intros HI Hst Hp H. destruct H as [H10|g' H10 Hm Eg|g' k s' H10 Hm Eg Hk1 Hk2 Ew].
  - exact HI.
  - destruct (inv_live HI) as (Hleg & Hrow & Hrect & Hgood & Hptr); [rewrite Hst; unfold live; auto|].
    destruct (@click_on_mine _ _ _ _ _ Hleg Hrect Hrow Hp) as (g'' & Eg'' & Hr' & H15 & Hoth).
    { now apply Z.eqb_eq. }
    rewrite Eg in Eg''. injection Eg'' as <-.
    constructor; cbn [m_row m_column m_board m_gb m_state m_flag m_preflag m_px m_py w_state w_gb w_left]; auto;
      try (unfold live; intuition congruence); try congruence.
    + intros q Hq. destruct (pos_eq_dec q (x, y)) as [->|Hne]; [right; right; auto|].
      unfold good. rewrite (Hoth q Hq Hne). unfold is_mine.
      destruct (Z.eqb_spec (cell (m_gb s) q) 11) as [E11|E11], (Z.eqb_spec (cell (m_board s) q) (-1)) as [Eb1|Eb1]; cbn [andb negb].
      * rewrite E11. auto. * right. left. auto.
      * left. apply Hgood; auto. * left. apply Hgood; auto.
    + intros _ Hex. destruct (i_unfin HI) as (q & Hq & Hbq & Hgq); auto.
      { rewrite Hst; unfold live; auto. }
      assert (Hne : q <> (x, y)) by (intros ->; contradiction).
      exists q. split; auto. split; auto. rewrite (Hoth q Hq Hne).
      destruct ((cell (m_gb s) q =? 11) && negb (is_mine (m_board s) q)); lia.
  - refine (proj1 (@opened_inv s [(x, y)] g' _ s' HI Hst _ Eg _ _ _ _ _ _ _ _ Ew)); try reflexivity.
    + intros p [<-|[]]; auto.
    + cbn [existsb m_state w_gb w_ce w_solved w_left]. unfold is_mine.
      destruct (Z.eqb_spec (cell (m_board s) (x, y)) (-1)); [contradiction|]. exact Hst.
Qed.

Lemma chord_inv s x y s' o : Inv s -> m_state s = Playing -> inb (m_row s) (m_column s) (x, y) ->
  chord_result s x y s' o -> Inv s'.
Proof.
  intros HI Hst Hp H. destruct H as [Hn|g' n us s' Hr Eg Hlen Hu1 Hu2 Hu3 Ew]; [exact HI|].
  refine (proj1 (@opened_inv s (chord_cells s x y) g' _ s' HI Hst _ Eg _ _ _ _ _ _ _ _ Ew)); try reflexivity.
  - intros p Hi. now apply in_chord_cells in Hi.
  - cbn [m_state w_gb w_solved w_ce w_state]. now rewrite Hst.
Qed.

Lemma right_inv s x y s' o : Inv s -> live (m_state s) -> inb (m_row s) (m_column s) (x, y) ->
  (m_state s = PreFlaging -> cell (m_gb s) (x, y) = 10 -> (S (nflags (m_row s) (m_column s) (m_gb s)) <= m_preflag s)%nat) ->
  m_state s <> Ready ->
  right_result s x y s' o -> Inv s'.
Proof.
  intros HI Hlv Hp Hpre Hnr H.
  destruct (inv_live HI Hlv) as (Hleg & Hrow & Hrect & Hgood & Hptr).
  assert (Hupd : forall v, v = 10 \/ v = 11 -> cell (m_gb s) (x, y) = 10 \/ cell (m_gb s) (x, y) = 11 ->
    forall fl', fl' = nflags (m_row s) (m_column s) (upd (m_gb s) (x, y) v) ->
    (m_state s = PreFlaging -> (fl' <= m_preflag s)%nat) ->
    InvF (m_row s) (m_column s) (m_board s) (upd (m_gb s) (x, y) v) (m_state s) fl' (m_preflag s) (m_px s) (m_py s)).
  { intros v Hv Hc fl' Hfl Hpf.
    assert (Hcell : forall q, cell (upd (m_gb s) (x, y) v) q = if posb (x, y) q then v else cell (m_gb s) q)
      by (intros q; apply (cell_upd q v Hrect Hp)).
    constructor; auto.
    - now apply rect_upd.
    - intros _ q Hq. unfold good. rewrite Hcell. destruct (posb_spec (x, y) q); [tauto|]. apply Hgood; auto.
    - intros Hs q Hq. rewrite Hcell. destruct (posb_spec (x, y) q); [tauto|]. apply (i_pre HI); auto.
    - intros E. specialize (Hpf E). lia.
    - contradiction.
    - intros _. apply (ptr_mono Hptr). intros q Hq Hlt. rewrite Hcell. destruct (posb_spec (x, y) q) as [<-|]; [lia|auto].
    - intros _ Hex. destruct (i_unfin HI Hlv Hex) as (q & Hq & Hbq & Hgq). exists q. split; auto. split; auto.
      rewrite Hcell. destruct (posb_spec (x, y) q); lia.
    - intros q Hq. left. unfold good. rewrite Hcell. destruct (posb_spec (x, y) q); [tauto|]. apply Hgood; auto.
    - intros E. unfold live in Hlv. intuition congruence.
    - intros E. unfold live in Hlv. intuition congruence.
    - apply (i_nodisp HI). }
  pose proof (i_flag HI Hlv) as Hfl.
  destruct H as [Hlt|fl' ce' H10 _ _ _|H11].
  - exact HI.
  - apply Hupd; auto.
    + cbn [m_flag w_flaged w_ce w_flag w_gb w_right].
      pose proof (@nflags_upd _ _ _ _ 11 Hrect Hp) as E. rewrite H10 in E. cbn [Z.eqb Pos.eqb] in E. lia.
    + intros E. specialize (Hpre E H10). cbn [m_flag w_flaged w_ce w_flag w_gb w_right]. lia.
  - pose proof (@nflags_upd _ _ _ _ 10 Hrect Hp) as E. rewrite H11 in E. cbn [Z.eqb Pos.eqb] in E.
    apply Hupd; auto.
    + cbn [m_flag w_flag w_gb w_right]. lia.
    + intros E'. cbn [m_flag w_flag w_gb w_right]. pose proof (i_preflag HI E'). lia.
Qed.

Lemma ready_to_pre row column b g fl pre px py pre' :
  InvF row column b g Ready fl pre px py -> InvF row column b g PreFlaging fl pre' px py.
Proof.
  intros [H1 H2 H3 H4 H5 H6 H7 H8 H9 H10 H11 H12 H13 H14].
  assert (Hl : live Ready) by (unfold live; auto).
  constructor; auto; try discriminate. intros _. rewrite H8; auto. lia.
Qed.
Lemma pre_to_play row column b g fl pre px py :
  InvF row column b g PreFlaging fl pre px py -> InvF row column b g Playing fl pre px py.
Proof.
  intros [H1 H2 H3 H4 H5 H6 H7 H8 H9 H10 H11 H12 H13 H14].
  assert (Hl : live PreFlaging) by (unfold live; auto).
  constructor; auto; try discriminate; try (intros [?|?]; discriminate).
Qed.
Lemma pre_to_ready row column b g fl px py :
  InvF row column b g PreFlaging fl 0 px py -> InvF row column b g Ready fl 0 px py /\ fl = 0%nat.
Proof.
  intros [H1 H2 H3 H4 H5 H6 H7 H8 H9 H10 H11 H12 H13 H14].
  assert (Hl : live PreFlaging) by (unfold live; auto).
  specialize (H7 eq_refl). rewrite (H6 Hl). split; [|lia].
  constructor; auto; try discriminate. intros _. lia.
Qed.

Lemma chord_any s x y s' o : Inv s -> live (m_state s) -> chording_click s x y = Ok (s', o) ->
  inb (m_row s) (m_column s) (x, y) /\ Inv s' /\ chord_result s x y s' (match o with Some n => n | None => 0%nat end) /\
  o <> None /\ (m_state s <> Playing -> s' = w_double s (S (m_double s))).
Proof.
  intros HI Hlv E. destruct (inv_live HI Hlv) as (Hleg & Hrow & Hrect & Hgood & Hptr).
  destruct (inb_dec (m_row s) (m_column s) (x, y)) as [Hp|Hp].
  2:{ exfalso. unfold chording_click in E. cbn [m_gb w_double] in E. rewrite (get_out Hrect Hp) in E. discriminate. }
  destruct (@chording_click_ok s Hleg Hrow Hrect Hgood Hptr x y Hp) as (s1 & o1 & E1 & Hr).
  rewrite E in E1. injection E1 as <- ->. split; auto. split; [|split; [auto|split; [discriminate|]]].
  - destruct Hlv as [Hs|[Hs|Hs]]; [| |eapply chord_inv; eauto];
      (destruct Hr as [Hn|g' n us s2 Hr]; [exact HI|]; exfalso;
       destruct Hr as (Hrange & _); destruct (i_pre HI ltac:(auto) Hp); lia).
  - intros Hnp. destruct Hlv as [Hs|[Hs|Hs]]; [| |contradiction];
      (destruct Hr as [Hn|g' n us s2 Hr]; [reflexivity|]; exfalso;
       destruct Hr as (Hrange & _); destruct (i_pre HI ltac:(auto) Hp); lia).
Qed.

Lemma left_any s x y s' o : Inv s -> m_state s = Playing -> left_click s x y = Ok (s', o) ->
  inb (m_row s) (m_column s) (x, y) /\ Inv s' /\ left_result s x y s' (match o with Some n => n | None => 0%nat end) /\ o <> None.
Proof.
  intros HI Hst E. destruct (inv_live HI) as (Hleg & Hrow & Hrect & Hgood & Hptr); [rewrite Hst; unfold live; auto|].
  destruct (inb_dec (m_row s) (m_column s) (x, y)) as [Hp|Hp].
  2:{ exfalso. unfold left_click in E. cbn [m_gb w_left] in E. rewrite (get_out Hrect Hp) in E. discriminate. }
  destruct (@left_click_ok s Hleg Hrow Hrect Hgood Hptr x y Hp) as (s1 & o1 & E1 & Hr).
  rewrite E in E1. injection E1 as <- ->. split; auto. split; [|split; [auto|discriminate]]. eapply left_inv; eauto.
Qed.

Lemma right_any s x y s' o : Inv s -> live (m_state s) ->
  (m_state s = PreFlaging -> cell (m_gb s) (x, y) = 10 -> (S (nflags (m_row s) (m_column s) (m_gb s)) <= m_preflag s)%nat) ->
  m_state s <> Ready ->
  right_click s x y = Ok (s', o) ->
  inb (m_row s) (m_column s) (x, y) /\ Inv s' /\ right_result s x y s' (match o with Some n => n | None => 0%nat end) /\ o <> None.
Proof.
  intros HI Hlv Hpre Hnr E. destruct (inv_live HI Hlv) as (Hleg & Hrow & Hrect & Hgood & Hptr).
  destruct (inb_dec (m_row s) (m_column s) (x, y)) as [Hp|Hp].
  2:{ exfalso. unfold right_click in E. cbn [m_gb w_right] in E. rewrite (get_out Hrect Hp) in E. discriminate. }
  destruct (@right_click_ok s Hleg Hrow Hrect Hgood x y Hp (i_flag HI Hlv)) as (s1 & o1 & E1 & Hr).
  rewrite E in E1. injection E1 as <- ->. split; auto. split; [|split; [auto|discriminate]]. eapply right_inv; eauto.
Qed.

Lemma chord_at_inv s p s' o : Inv s -> live (m_state s) -> chord_at s p = Ok (s', o) -> Inv s'.
Proof.
  intros HI Hlv. unfold chord_at, ret. destruct (at_corner s p).
  - intros E; injection E as <- <-; auto.
  - intros E. eapply chord_any in E; eauto. tauto.
Qed.
Lemma chord_at_right_inv s p s' o : Inv s -> live (m_state s) -> chord_at_right s p = Ok (s', o) -> Inv s'.
Proof.
  intros HI Hlv E. unfold chord_at_right in E. apply bind_ok in E as (r & _ & E).
  eapply chord_at_inv; [| |exact E]; [exact HI|exact Hlv].
Qed.
Lemma left_at_inv s p s' o : Inv s -> m_state s = Playing -> left_at s p = Ok (s', o) -> Inv s'.
Proof.
  intros HI Hst. unfold left_at, ret. destruct (at_corner s p).
  - intros E; injection E as <- <-; auto.
  - intros E. eapply left_any in E; eauto. tauto.
Qed.

Ltac done_ret E HI := (unfold ret, fail in E; injection E as <- <-; exact HI).

Lemma step_playing_inv s e p s' o : Inv s -> m_state s = Playing -> step_playing s e p = Ok (s', o) -> Inv s'.
Proof.
  intros HI Hst E. assert (Hlv : live (m_state s)) by (rewrite Hst; unfold live; auto).
  assert (Hright : forall w, right_click (w_mouse s w) (fst p) (snd p) = Ok (s', o) -> Inv s').
  { intros w E'. eapply right_any in E'; [apply E'|exact HI|exact Hlv| |]; cbn [m_state w_mouse]; rewrite Hst; discriminate. }
  destruct e; cbn [step_playing] in E; try (done_ret E HI);
    try (match type of E with match m_mouse s with _ => _ end = _ => idtac end; destruct (m_mouse s); try (done_ret E HI);
         try (eapply chord_at_inv; [| |exact E]; [exact HI|exact Hlv]);
         try (eapply chord_at_right_inv; [| |exact E]; [exact HI|exact Hlv]);
         try (eapply left_at_inv; [| |exact E]; [exact HI|exact Hst])).
  - destruct (in_board s p); [|done_ret E HI]. apply bind_ok in E as (w & _ & E). eauto.
  - eapply chord_any in E; [apply E|exact HI|exact Hlv].
  - apply bind_ok in E as (w & _ & E). eapply Hright. exact E.
  - destruct (negb (m_mid _)); [|done_ret E HI]. eapply chord_any in E; [apply E|exact HI|exact Hlv].
Qed.

Lemma clear_inv s : Inv s -> m_state s = PreFlaging -> m_preflag s = 0%nat -> Inv (clear_click_num (w_state s Ready)).
Proof.
  intros HI Hst Hpf. unfold Inv in *. cbn [m_row m_column m_board m_gb m_state m_flag m_preflag m_px m_py clear_click_num w_state w_right w_left w_double w_flaged w_flag].
  rewrite Hst, Hpf in HI. apply pre_to_ready in HI as [HI E]. rewrite Hpf. now rewrite E in HI.
Qed.
Lemma ready_inv s : Inv s -> m_state s = PreFlaging -> m_preflag s = 0%nat -> Inv (w_state s Ready).
Proof.
  intros HI Hst Hpf. unfold Inv in *. cbn [m_row m_column m_board m_gb m_state m_flag m_preflag m_px m_py w_state].
  rewrite Hst, Hpf in HI. apply pre_to_ready in HI as [HI E]. now rewrite Hpf.
Qed.
Lemma preflag_inv s n : Inv s -> m_state s = Ready -> Inv (w_state (w_preflag s n) PreFlaging).
Proof. intros HI Hst. unfold Inv in *. rewrite Hst in HI. eapply ready_to_pre in HI. exact HI. Qed.
Lemma play_inv s : Inv s -> m_state s = PreFlaging -> Inv (w_state s Playing).
Proof. intros HI Hst. unfold Inv in *. rewrite Hst in HI. apply pre_to_play in HI. exact HI. Qed.

Lemma step_ready_inv s e p s' o : Inv s -> m_state s = Ready -> step_ready s e p = Ok (s', o) -> Inv s'.
Proof.
  intros HI Hst E.
  assert (Hright : forall w n, (1 <= n)%nat -> right_click (w_state (w_preflag (w_mouse s w) n) PreFlaging) (fst p) (snd p) = Ok (s', o) -> Inv s').
  { intros w n Hn E'. eapply right_any in E'; [apply E'|apply preflag_inv; [exact HI|exact Hst]|right; left; reflexivity| |discriminate].
    intros _ _. cbn [m_row m_column m_gb m_preflag w_state w_preflag w_mouse]. rewrite (i_ready HI Hst). exact Hn. }
  destruct e; cbn [step_ready] in E; try (done_ret E HI);
    try (match type of E with match m_mouse s with _ => _ end = _ => idtac end; destruct (m_mouse s); try (done_ret E HI)).
  - destruct (in_board _ p); [|done_ret E HI]. unfold ret in E; injection E as <- <-.
    eapply (@preflag_inv (w_mouse s DownUp)); [exact HI|exact Hst].
  - destruct (in_board _ p); [|done_ret E HI]. eapply Hright; [|exact E]. lia.
  - apply bind_ok in E as (w & _ & E). destruct (w =? 10); [|discriminate].
    eapply right_any in E; [apply E|apply preflag_inv; [exact HI|exact Hst]|right; left; reflexivity| |discriminate].
    intros _ _. cbn [m_row m_column m_gb m_preflag w_state w_preflag w_mouse]. rewrite (i_ready HI Hst). lia.
Qed.

Lemma step_playing_mouse_only s e p s' o :
  (e = e_lc \/ e = e_mv \/ (e = e_rc /\ m_mouse s <> UpUp) \/
   (e = e_lr /\ (m_mouse s = UpUp \/ m_mouse s = DownUpAfterChording \/ m_mouse s = Undefined))) ->
  step_playing s e p = Ok (s', o) -> exists w, s' = w_mouse s w /\ o = Some 0%nat.
Proof.
  assert (Hs : s = w_mouse s (m_mouse s)) by (now destruct s).
  intros He E. destruct He as [->|[->|[[-> Hm]|[-> Hm]]]]; cbn [step_playing] in E.
  - destruct (m_mouse s) eqn:Em; unfold ret in E; injection E as <- <-; eauto.
  - unfold ret in E; injection E as <- <-; eauto.
  - destruct (m_mouse s) eqn:Em; unfold ret in E; try congruence; injection E as <- <-; eauto.
  - destruct (m_mouse s) eqn:Em; unfold ret in E; try (intuition congruence); injection E as <- <-; eauto.
Qed.

(** In PreFlaging the fall-through events only move the mouse state or count a void chord. *)
Lemma preflag_fall_inv s e p s' o : Inv s -> m_state s = PreFlaging \/ m_state s = Ready ->
  (e = e_lc \/ e = e_mv \/ e = e_rr \/ (e = e_rc /\ m_mouse s <> UpUp) \/ (e = e_lr /\ m_mouse s <> DownUp)) ->
  step_playing s e p = Ok (s', o) -> Inv s'.
Proof.
  intros HI Hst He E. assert (Hlv : live (m_state s)) by (unfold live; tauto).
  destruct He as [->|[->|[->|[[-> Hm]|[-> Hm]]]]]; cbn [step_playing] in E;
   try (done_ret E HI);
   try (match type of E with match m_mouse s with _ => _ end = _ => idtac end; destruct (m_mouse s); try (done_ret E HI); try congruence;
         try (eapply chord_at_inv; [| |exact E]; [exact HI|exact Hlv]);
         try (eapply chord_at_right_inv; [| |exact E]; [exact HI|exact Hlv])).
Qed.

Lemma step_preflag_inv s e p s' o : Inv s -> m_state s = PreFlaging -> step_preflag s e p = Ok (s', o) -> Inv s'.
Proof.
  intros HI Hst E. assert (Hlv : live (m_state s)) by (rewrite Hst; unfold live; auto).
  pose proof (i_preflag HI Hst) as Hpf.
  destruct e; cbn [step_preflag] in E; try (done_ret E HI);
    try (eapply preflag_fall_inv in E; [exact E|exact HI|auto|tauto]);
    try (match type of E with match m_mouse s with _ => _ end = _ => idtac end; destruct (m_mouse s) eqn:Em; try (done_ret E HI)).
  all: try (eapply preflag_fall_inv in E; [exact E|exact HI|auto|rewrite Em; right; right; right; right; split; [auto|discriminate]]).
  - (* lr DownUp *) destruct (at_corner s p).
    + unfold ret in E. injection E as <- <-. cbn [m_preflag w_mouse]. destruct (Nat.eqb_spec (m_preflag s) 0) as [E0|E0]; [|exact HI].
      apply (@clear_inv (w_mouse s UpUp)); [exact HI|exact Hst|exact E0].
    + apply bind_ok in E as (w & _ & E). destruct (w =? 10).
      * eapply step_playing_inv in E; [exact E|now apply play_inv|reflexivity].
      * eapply preflag_fall_inv in E; [exact E|exact HI|left; exact Hst|]. right; right; right; right. split; auto. discriminate.
  - (* rc UpUp *) destruct (in_board _ p).
    2:{ eapply preflag_fall_inv in E; [exact E|exact HI|left; exact Hst|]. right; right; right; left. split; auto. discriminate. }
    apply bind_ok in E as (w & Ew & E). cbn [m_gb w_mouse] in Ew.
    destruct (get_inv 0 (i_rect HI) Ew) as [Hp Hw]. change (gcell 0) with cell in Hw.
    destruct (Z.eqb_spec w 10) as [E10|E10].
    + eapply right_any in E; [apply E| |right; left; reflexivity| |discriminate].
      * unfold Inv. cbn [m_row m_column m_board m_gb m_state m_flag m_preflag m_px m_py w_state w_preflag w_mouse].
        unfold Inv in HI. rewrite Hst in HI. destruct HI. constructor; auto; try (intros _; lia).
      * intros _ _. cbn [m_row m_column m_gb m_preflag w_state w_preflag w_mouse]. lia.
    + assert (E11 : cell (m_gb s) (fst p, snd p) = 11).
      { destruct (i_pre HI (or_intror Hst) Hp); [congruence|auto]. }
      pose proof (@nflags_upd _ _ _ _ 10 (i_rect HI) Hp) as En. rewrite E11 in En. cbn [Z.eqb Pos.eqb] in En.
      apply bind_ok in E as (n & Eu & E). unfold usub in Eu. cbn [m_preflag w_mouse] in Eu.
      destruct (Nat.leb_spec 1 (m_preflag s)); [|discriminate]. injection Eu as <-.
      destruct (Nat.eqb_spec (m_preflag s - 1) 0) as [E0|E0].
      * apply bind_ok in E as (g' & Es & E). unfold ret in E. injection E as <- <-.
        cbn [m_gb clear_click_num w_state w_preflag w_mouse w_right w_left w_double w_flaged w_flag] in Es.
        rewrite (set_ok _ (i_rect HI) Hp) in Es. injection Es as <-.
        unfold Inv in *. cbn [m_row m_column m_board m_gb m_state m_flag m_preflag m_px m_py clear_click_num w_state w_preflag w_mouse w_right w_left w_double w_flaged w_flag w_gb].
        rewrite Hst in HI. destruct HI as [H1 H2 H3 H4 H5 H6 H7 H8 H9 H10 H11 H12 H13 H14].
        assert (Hl : live PreFlaging) by (unfold live; auto).
        assert (Hcell : forall q, cell (upd (m_gb s) (fst p, snd p) 10) q = if posb (fst p, snd p) q then 10 else cell (m_gb s) q)
          by (intros q; apply (cell_upd q 10 H3 Hp)).
        assert (Hz : nflags (m_row s) (m_column s) (upd (m_gb s) (fst p, snd p) 10) = 0%nat) by lia.
        constructor; auto; try discriminate.
        -- now apply rect_upd.
        -- intros _ q Hq. unfold good. rewrite Hcell. destruct (posb_spec (fst p, snd p) q); [tauto|]. apply H4; auto.
        -- intros _ q Hq. rewrite Hcell. destruct (posb_spec (fst p, snd p) q); [tauto|]. apply H5; auto.
        -- intros _. apply (ptr_mono (H9 Hl)). intros q Hq Hlt. rewrite Hcell. destruct (posb_spec (fst p, snd p) q) as [<-|]; [lia|auto].
        -- intros _ Hex. destruct (H10 Hl Hex) as (q & Hq & Hbq & Hgq). exists q. split; auto. split; auto.
           rewrite Hcell. destruct (posb_spec (fst p, snd p) q); lia.
        -- intros q Hq. left. unfold good. rewrite Hcell. destruct (posb_spec (fst p, snd p) q); [tauto|]. apply H4; auto.
      * (* unflag, others remain *)
        assert (Hge : (1 <= nflags (m_row s) (m_column s) (m_gb s))%nat) by lia.
        destruct (inv_live HI Hlv) as (Hleg & Hrow & Hrect & Hgood & Hptr).
        pose proof (i_flag HI Hlv) as Hfl.
        assert (HR : exists s2 o2, right_click (w_preflag (w_mouse s UpDown) (m_preflag s - 1)) (fst p) (snd p) = Ok (s2, Some o2) /\
                       right_result (w_preflag (w_mouse s UpDown) (m_preflag s - 1)) (fst p) (snd p) s2 o2).
        { apply right_click_ok; auto. }
        destruct HR as (s2 & o2 & E2 & Hr2). rewrite E in E2. injection E2 as <- ->.
        destruct Hr2 as [Hlt|fl' ce' H10 _ _ _|H11]; cbn [m_gb w_preflag w_mouse] in *; [lia|congruence|].
        unfold Inv in *. cbn [m_row m_column m_board m_gb m_state m_flag m_preflag m_px m_py w_state w_preflag w_mouse w_right w_flag w_gb].
        assert (Hcell : forall q, cell (upd (m_gb s) (fst p, snd p) 10) q = if posb (fst p, snd p) q then 10 else cell (m_gb s) q)
          by (intros q; apply (cell_upd q 10 Hrect Hp)).
        rewrite Hst in *. destruct HI as [H1 H2 H3 H4 H5 H6 H7 H8 H9 H10 _ H12 H13 H14].
        constructor; auto; try discriminate.
        -- now apply rect_upd.
        -- intros _ q Hq. unfold good. rewrite Hcell. destruct (posb_spec (fst p, snd p) q); [tauto|]. apply H4; auto.
        -- intros _ q Hq. rewrite Hcell. destruct (posb_spec (fst p, snd p) q); [tauto|]. apply H5; auto.
        -- intros _. lia.
        -- intros _. lia.
        -- intros _. apply (ptr_mono (H9 Hlv)). intros q Hq Hlt. rewrite Hcell. destruct (posb_spec (fst p, snd p) q) as [<-|]; [lia|auto].
        -- intros _ Hex. destruct (H10 Hlv Hex) as (q & Hq & Hbq & Hgq). exists q. split; auto. split; auto.
           rewrite Hcell. destruct (posb_spec (fst p, snd p) q); lia.
        -- intros q Hq. left. unfold good. rewrite Hcell. destruct (posb_spec (fst p, snd p) q); [tauto|]. apply H4; auto.
  - (* rc DownUp *) cbn [m_preflag w_mouse] in E. destruct (in_board _ p && (m_preflag s =? 0)%nat) eqn:Eb.
    + apply andb_true_iff in Eb as [_ E0]. apply Nat.eqb_eq in E0.
      eapply preflag_fall_inv in E; [exact E|apply ready_inv; [exact HI|exact Hst|exact E0]|right; reflexivity|].
      right; right; right; left. split; auto. discriminate.
    + eapply preflag_fall_inv in E; [exact E|exact HI|left; exact Hst|].
      right; right; right; left. split; auto. discriminate.
  - (* cc *) unfold ret in E. injection E as <- <-. destruct (in_board _ p && (m_preflag s =? 0)%nat) eqn:Eb; [|exact HI].
    apply andb_true_iff in Eb as [_ E0]. apply Nat.eqb_eq in E0.
    exact (@ready_inv s HI Hst E0).
  - (* pf *) apply bind_ok in E as (w & Ew & E). destruct (w =? 10) eqn:E10; [|discriminate].
    eapply right_any in E; [apply E| |right; left; exact Hst| |cbn [m_state w_preflag]; rewrite Hst; discriminate].
    + unfold Inv. cbn [m_row m_column m_board m_gb m_state m_flag m_preflag m_px m_py w_preflag].
      unfold Inv in HI. rewrite Hst in *. destruct HI. constructor; auto.
    + intros _ _. cbn [m_row m_column m_gb m_preflag w_preflag]. lia.
Qed.

Lemma step_inv s e p s' o : Inv s -> step s e p = Ok (s', o) -> Inv s'.
Proof.
  intros HI E. unfold step in E. destruct (m_state s) eqn:Hst.
  - eapply step_ready_inv; eauto.
  - eapply step_preflag_inv; eauto.
  - eapply step_playing_inv; eauto.
  - done_ret E HI. - done_ret E HI. - done_ret E HI.
Qed.

Lemma new_inv row column b s : legal_board row column b -> (0 < row)%nat -> mb_new b = Ok s ->
  Inv s /\ m_row s = row /\ m_column s = column /\ m_board s = b.
Proof.
  intros Hl Hr E. unfold mb_new, get_row, get_column in E.
  rewrite (ncolsR_ok (proj1 Hl) Hr), (nrows_ok (proj1 Hl)) in E. cbn [bind] in E. injection E as <-.
  cbn [m_row m_column m_board]. split; auto.
  unfold Inv; cbn [m_row m_column m_board m_gb m_state m_flag m_preflag m_px m_py].
  assert (H10 : forall q, inb row column q -> cell (mkboard row column 10) q = 10) by (intros; now apply cell_mkboard).
  assert (Hz : nflags row column (mkboard row column 10) = 0%nat).
  { apply nflags_none. intros q Hq. rewrite H10; auto; lia. }
  constructor; auto; try discriminate.
  - apply rect_mkboard.
  - intros _ q Hq. left. auto.
  - intros _. split; auto. intros q Hq [?|[? ?]]; lia.
  - intros _ (q & Hq & Hn). exists q. rewrite H10; auto. split; auto. split; auto. lia.
  - intros q Hq. left. left. auto.
Qed.

Lemma zero_board_legal row column : legal_board row column (mkboard row column 0).
Proof.
  split; [apply rect_mkboard|]. intros p Hp. right. rewrite cell_mkboard by auto.
  unfold adj_count. rewrite count_zero; auto. intros q Hq. apply in_positions in Hq.
  unfold is_mine. rewrite cell_mkboard by auto. apply andb_false_r.
Qed.

Lemma reset_inv s : Inv s -> Inv (mb_reset s).
Proof.
  intros HI. unfold Inv, mb_reset; cbn [m_row m_column m_board m_gb m_state m_flag m_preflag m_px m_py].
  set (row := m_row s). set (column := m_column s).
  assert (Hr : (0 < row)%nat) by apply HI.
  assert (H10 : forall q, inb row column q -> cell (mkboard row column 10) q = 10) by (intros; now apply cell_mkboard).
  assert (Hz : nflags row column (mkboard row column 10) = 0%nat).
  { apply nflags_none. intros q Hq. rewrite H10; auto; lia. }
  constructor; auto; try discriminate.
  - apply zero_board_legal.
  - apply rect_mkboard.
  - intros _ q Hq. left. auto.
  - intros _. split; auto. intros q Hq [?|[? ?]]; lia.
  - intros _ (q & Hq & Hn). exists q. rewrite H10; auto. split; auto. split; auto. lia.
  - intros q Hq. left. left. auto.
Qed.

Lemma exec_inv cs : forall s s', Inv s -> exec s cs = Ok s' -> Inv s'.
Proof.
  intros s s' HI E. revert E. apply foldM_inv_partial; auto.
  intros s1 c s2 _ H1 E. destruct c as [e p|]; cbn [call1] in E.
  - apply bind_ok in E as ([s3 o] & E & E'). injection E' as <-. cbn [fst]. eapply step_inv; eauto.
  - injection E as <-. now apply reset_inv.
Qed.
