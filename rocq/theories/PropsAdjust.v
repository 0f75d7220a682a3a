(** * PropsAdjust: the adjusting generator [laymine_solvable_adjust] (C39). *)
From Verif Require Import Base Spec BaseFacts LayMine LayMineProofs Metrics Refresh RefreshProofs Matrix Solve SolverSpec MatrixProofs
  EnumProofs SolvableProofs Solvable SolvableSpec Blocks BlocksProofs Adjust AdjustProofs PropsUtils PropsSolvable PropsGen.
Open Scope Z_scope.

(** The remaining mines are laid and the numbers computed. *)
Lemma finish_ok row column Z0 b : (0 < row)%nat -> okb row column Z0 b ->
  exists b1 b2,
    foldM (fun b '(i, j) => let* v := get b i j in if v =? -10 then set b i j (-1) else Ok b) (grid row column) b = Ok b1 /\
    foldM (fun b '(i, j) => let* v := get b i j in if v =? -1 then bump row column b i j else Ok b) (grid row column) b1 = Ok b2 /\
    legal_board row column b2 /\ (forall q, inb row column q -> is_mine b2 q = negb (cell b q =? 0)).
Proof.
  intros Hrow O. assert (Hr : rect row column b) by apply O.
  destruct (@foldM_pointwise row column (fun b '(i, j) => let* v := get b i j in if v =? -10 then set b i j (-1) else Ok b)
    (fun _ v => if v =? -10 then -1 else v) (grid row column)) with (b := b) as (b1 & E1 & R1 & C1); auto.
  - apply NoDup_positions.
  - intros p Hp. now apply in_grid.
  - intros g [i j] Hp Hg. apply in_grid in Hp. rewrite (get_ok Hg Hp). cbn [bind].
    destruct (cell g (i, j) =? -10); [now rewrite (set_ok _ Hg Hp)|]. now rewrite (upd_same Hg Hp).
  - assert (V1 : forall p, inb row column p -> cell b1 p = 0 \/ cell b1 p = -1).
    { intros p Hp. rewrite C1. destruct (inl p (grid row column)) eqn:Ei; [|destruct (inl_spec p (grid row column)) as [Hi|Hi]; [discriminate Ei|exfalso; apply Hi; now apply in_grid]].
      destruct (ok_vals O Hp) as [V|[V|V]]; rewrite V; cbn; auto. }
    destruct (@cal_board_numbers_ok row column b1) as (b2 & E2 & L2); auto.
    destruct (laid_legal L2) as [Hl Hm].
    exists b1, b2. split; auto. split.
    + unfold cal_board_numbers in E2. destruct R1 as [N1 N2]. assert (En : nrows b1 = row) by exact N1. rewrite En in E2.
      assert (Ec : ncolsR b1 = Ok column).
      { unfold ncolsR. destruct b1 as [|r b1]; [cbn in N1; lia|]. inversion N2; subst. cbn. reflexivity. }
      rewrite Ec in E2. exact E2.
    + split; auto. intros q Hq. rewrite Hm by auto. unfold is_mine. rewrite C1.
      destruct (inl q (grid row column)) eqn:Ei; [|destruct (inl_spec q (grid row column)) as [Hi|Hi]; [discriminate Ei|exfalso; apply Hi; now apply in_grid]].
      destruct (ok_vals O Hq) as [V|[V|V]]; rewrite V; reflexivity.
Qed.

(** ** C39 *)
(** The call returns; the board is legal, the start is not a mine and there are at least as many mines
    as asked for. Unless the call is flagged a success there are exactly as many, and if there is room
    for it the start is a zero. *)
Theorem C39_laymine_solvable_adjust_partial : forall shuf row column minenum x0 y0,
  (forall k l, Permutation l (shuf k l)) -> (2 <= row)%nat -> (2 <= column)%nat -> inb row column (x0, y0) ->
  (minenum < row * column)%nat ->
  exists b flag, laymine_solvable_adjust shuf row column minenum x0 y0 = Ok (b, flag) /\
    legal_board row column b /\ is_mine b (x0, y0) = false /\ (minenum <= mine_count row column b)%nat /\
    (flag = false -> mine_count row column b = minenum) /\
    ((minenum + count (nearb (x0, y0)) (positions row column) <= row * column)%nat ->
      (forall q, inb row column q -> near (x0, y0) q -> is_mine b q = false) /\ cell b (x0, y0) = 0).
Proof.
  intros shuf row column minenum x0 y0 Hs Hr Hc Hi Hm. unfold laymine_solvable_adjust.
  rewrite area_op_ok by auto. cbn [bind]. pose proof (zone_prod_count row column x0 y0) as Hz.
  set (Z0 := zone row column x0 y0) in *.
  assert (HZ : (length Z0 <= row * column)%nat) by (rewrite <- Hz, <- (length_positions row column); apply count_le).
  rewrite usub_ok by lia. cbn [bind].
  destruct (Nat.ltb_spec (row * column - length Z0) minenum) as [L|L].
  { destruct (@laymine_ok (shuf 0%nat) row column minenum x0 y0) as (b & E & Hl & Hn & Hst); auto; [lia|].
    rewrite E. cbn [bind]. rewrite usub_ok by lia. cbn [bind]. do 2 eexists. split; [reflexivity|].
    split; auto. split; auto. split; [lia|]. split; auto. intros Hx. lia. }
  destruct (Nat.eqb_spec (row * column) (length Z0 + minenum)) as [L2|L2].
  { destruct (@laymine_op_ok (shuf 0%nat) row column minenum x0 y0) as (b & E & Hl & Hn & Hst & H0); auto; [lia|].
    rewrite E. cbn [bind]. do 2 eexists. split; [reflexivity|].
    split; auto. split; [unfold is_mine; now rewrite H0|]. split; [lia|]. split; [discriminate|]. auto. }
  assert (R10 : rect row column (mkboard row column 10)) by apply rect_mkboard.
  assert (Rm : rect row column (mkboard row column (-10))) by apply rect_mkboard.
  rewrite (set_ok _ R10 Hi). cbn [bind]. rewrite usub_ok by lia. cbn [bind].
  assert (HZin : Forall (inb row column) Z0) by (apply Forall_forall; intros q Hq; apply in_zone in Hq; tauto).
  destruct (fill_ok (-10) HZin Rm) as (b0' & _). clear b0'.
  destruct (fill_ok 0 HZin Rm) as (b0 & E0 & R0 & C0). rewrite E0. cbn [bind].
  assert (Cm : forall v q, inb row column q -> cell (mkboard row column v) q = v) by (intros; now apply cell_mkboard).
  assert (V0 : forall q, inb row column q -> cell b0 q = if nearb (x0, y0) q then 0 else -10).
  { intros q Hq. rewrite C0, Cm by auto. destruct (nearb_spec (x0, y0) q) as [Hn|Hn].
    - rewrite mem_true; auto. now apply in_zone.
    - rewrite mem_false; auto. intros Hx. apply in_zone in Hx. tauto. }
  assert (O0 : okb row column Z0 b0).
  { constructor; auto.
    - intros p Hp. rewrite V0 by auto. destruct (nearb (x0, y0) p); auto.
    - intros q Hq. rewrite C0, mem_true; auto. }
  assert (M0 : nmine row column b0 = 0%nat).
  { unfold nmine. apply count_zero. intros q Hq. apply in_positions in Hq. rewrite V0 by auto. now destruct (nearb (x0, y0) q). }
  assert (F0 : (nfree row column b0 + length Z0 = row * column)%nat).
  { rewrite <- Hz, <- (length_positions row column). unfold nfree.
    rewrite (@count_ext _ (fun q => cell b0 q =? -10) (fun q => negb (nearb (x0, y0) q))).
    - clear. generalize (positions row column). intros l. induction l as [|a l IH]; auto. rewrite !count_cons. cbn [length]. destruct (nearb (x0, y0) a); cbn [negb]; lia.
    - intros q Hq. apply in_positions in Hq. rewrite V0 by auto. now destruct (nearb (x0, y0) q). }
  match goal with |- context [adjust_step ?f shuf b0 ?g ?pl ?r ?rn ?k] =>
    destruct (fun H1 H2 => @adjust_step_ok row column minenum Z0 shuf H1 H2 f b0 g pl r rn k) as (b & fl & k' & E & Hb) end.
  all: auto; try lia.
  - now apply rect_upd.
  - intros q Hq. rewrite (cell_upd q 0 R10 Hi), Cm by auto. destruct (posb (x0, y0) q); lia.
  - apply Forall_forall. intros q Hq. apply filter_In in Hq as [Hq _]. rewrite Forall_forall in HZin. auto.
  - unfold c10. rewrite <- (length_positions row column). apply Nat.lt_succ_r, count_le.
  - rewrite E. cbn [bind].
    destruct (negb fl || match b with [] => true | _ => false end) eqn:Ef.
    { destruct (@laymine_op_ok (shuf k') row column minenum x0 y0) as (b' & E' & Hl & Hn & Hst & H0); auto; [lia|].
      rewrite E'. cbn [bind]. do 2 eexists. split; [reflexivity|].
      split; auto. split; [unfold is_mine; now rewrite H0|]. split; [lia|]. split; auto. }
    apply orb_false_iff in Ef as [Ef _]. apply negb_false_iff in Ef. subst fl. destruct (Hb eq_refl) as [O Ht]. clear Hb.
    destruct (@finish_ok row column Z0 b) as (b1 & b2 & E1 & E2 & Hl & Hmi); auto; [lia|].
    rewrite E1. cbn [bind]. rewrite E2. cbn [bind]. do 2 eexists. split; [reflexivity|].
    assert (Hzone : forall q, inb row column q -> near (x0, y0) q -> is_mine b2 q = false).
    { intros q Hq Hn. rewrite Hmi by auto. rewrite (ok_zone O); auto. now apply in_zone. }
    assert (Hst : is_mine b2 (x0, y0) = false) by (apply Hzone; auto; unfold near; cbn; lia).
    split; auto. split; auto. split; [|split; [discriminate|]].
    + etransitivity; [exact Ht|]. unfold mine_count.
      rewrite (@count_ext _ (is_mine b2) (fun q => (cell b q =? -1) || (cell b q =? -10))).
      * unfold nmine, nfree. generalize (positions row column). intros l. induction l as [|a l IH]; auto. rewrite !count_cons.
        destruct (Z.eqb_spec (cell b a) (-1)) as [Ea|Ea]; [rewrite Ea; cbn; lia|]. destruct (cell b a =? -10); cbn [orb]; lia.
      * intros q Hq. apply in_positions in Hq. rewrite Hmi by auto. destruct (ok_vals O Hq) as [V|[V|V]]; rewrite V; reflexivity.
    + intros _. split; auto. destruct Hl as [Hrect Hl]. destruct (Hl (x0, y0) Hi) as [H1|H1]; [unfold is_mine in Hst; rewrite H1 in Hst; discriminate Hst|].
      rewrite H1. unfold adj_count. rewrite count_zero; [reflexivity|]. intros q Hq. apply in_positions in Hq.
      destruct (adjb_spec (x0, y0) q) as [Ha|Ha]; auto. cbn [andb]. apply Hzone; auto. apply Ha.
Qed.
Print Assumptions C39_laymine_solvable_adjust_partial.

(** When all cells away from the start have to be mines, or even more, the answer is right: the mine
    count is exact, and the flag says precisely whether a board without guessing was possible. *)
Lemma safe_in row column b l : NoDup l -> (forall q, In q l -> inb row column q /\ is_mine b q = false) ->
  (mine_count row column b + length l = row * column)%nat ->
  forall p, inb row column p -> is_mine b p = false -> In p l.
Proof.
  intros Nd Hl Hc p Hp Hm.
  assert (Hlen : length (filter (fun q => negb (is_mine b q)) (positions row column)) = length l).
  { unfold mine_count in Hc. rewrite <- (length_positions row column) in Hc.
    assert (G : forall k, (count (is_mine b) k + length (filter (fun q => negb (is_mine b q)) k) = length k)%nat).
    { induction k as [|a k IH]; auto. rewrite count_cons. cbn [filter length]. destruct (is_mine b a); cbn [negb length]; lia. }
    specialize (G (positions row column)). lia. }
  apply (@NoDup_length_incl _ l (filter (fun q => negb (is_mine b q)) (positions row column))); auto; [lia| |].
  - intros q Hq. apply filter_In. destruct (Hl q Hq) as [H1 H2]. split; [now apply in_positions|now rewrite H2].
  - apply filter_In. split; [now apply in_positions|now rewrite Hm].
Qed.
Lemma zone_logical row column b start l : inb row column start -> cell b start = 0 ->
  (forall q, In q l -> inb row column q /\ adj start q) -> exists k, logical row column b start k /\ In start k /\ incl l k.
Proof.
  intros Hi H0. induction l as [|q l IH] using rev_ind; intros Hl.
  - exists [start]. split; [constructor|]. split; [now left|]. intros q [].
  - destruct IH as (k & Hk & Hs & Hin); [intros; apply Hl; apply in_or_app; auto|].
    destruct (Hl q) as [Hq Ha]; [apply in_or_app; right; now left|].
    exists (k ++ [q]). split; [|split].
    + constructor; auto. intros m Hm. destruct (Hm start Hs) as [_ He]. rewrite H0 in He.
      assert (Hz : adj_count row column m start = 0%nat) by lia. unfold adj_count in Hz.
      pose proof (count_zero_inv Hz (proj2 (in_positions _ _ _) Hq)) as Hzq. cbn beta in Hzq.
      destruct (adjb_spec start q); [exact Hzq|contradiction].
    + apply in_or_app. auto.
    + intros x Hx. apply in_app_or in Hx as [Hx|Hx]; apply in_or_app; auto.
Qed.
Theorem C39_crowded : forall shuf row column minenum x0 y0,
  (forall k l, Permutation l (shuf k l)) -> (2 <= row)%nat -> (2 <= column)%nat -> inb row column (x0, y0) ->
  (minenum < row * column)%nat -> (row * column <= minenum + count (nearb (x0, y0)) (positions row column))%nat ->
  exists b flag, laymine_solvable_adjust shuf row column minenum x0 y0 = Ok (b, flag) /\
    mine_count row column b = minenum /\ (flag = true -> no_guess row column b (x0, y0)) /\
    (flag = true <-> minenum + 1 = row * column \/ minenum + count (nearb (x0, y0)) (positions row column) = row * column)%nat.
Proof.
  intros shuf row column minenum x0 y0 Hs Hr Hc Hi Hm Hz. unfold laymine_solvable_adjust.
  rewrite area_op_ok by auto. cbn [bind]. rewrite zone_prod_count in Hz |- *.
  set (Z0 := zone row column x0 y0) in *.
  assert (HZ : (length Z0 <= row * column)%nat) by (unfold Z0; rewrite <- zone_prod_count, <- (length_positions row column); apply count_le).
  rewrite usub_ok by lia. cbn [bind].
  destruct (Nat.ltb_spec (row * column - length Z0) minenum) as [L|L].
  - destruct (@laymine_ok (shuf 0%nat) row column minenum x0 y0) as (b & E & Hl & Hn & Hst); auto; [lia|].
    rewrite E. cbn [bind]. rewrite usub_ok by lia. cbn [bind]. do 2 eexists. split; [reflexivity|]. split; auto.
    split; [|rewrite Nat.eqb_eq; lia]. intros H1. apply Nat.eqb_eq in H1. exists [(x0, y0)]. split; [constructor|].
    apply safe_in; [constructor; [intros []|constructor]| |cbn [length]; lia]. intros q [<-|[]]. auto.
  - assert (L2 : (row * column = length Z0 + minenum)%nat) by lia. rewrite (proj2 (Nat.eqb_eq _ _) L2).
    destruct (@laymine_op_ok (shuf 0%nat) row column minenum x0 y0) as (b & E & Hl & Hn & Hst & H0); auto; [rewrite zone_prod_count; fold Z0; lia|].
    rewrite E. cbn [bind]. do 2 eexists. split; [reflexivity|]. split; auto. split; [|split; auto; intros _; right; lia].
    intros _. destruct (@zone_logical row column b (x0, y0) (filter (fun p => negb (posb (x0, y0) p)) Z0)) as (k & Hk & Hs0 & Hin); auto.
    + intros q Hq. apply filter_In in Hq as [Hq Hp]. apply in_zone in Hq as [H1 H2]. split; auto. split; auto.
      intros <-. rewrite posb_refl in Hp. discriminate Hp.
    + exists k. split; auto. intros p Hp Hmp.
      assert (Hpz : In p Z0).
      { apply (@safe_in row column b Z0); auto; [apply NoDup_zone| |lia]. intros q Hq. apply in_zone in Hq as [H1 H2]. split; auto. }
      destruct (posb_spec (x0, y0) p) as [<-|Hne]; auto. apply Hin. apply filter_In. split; auto.
      destruct (posb_spec (x0, y0) p); auto.
Qed.
Print Assumptions C39_crowded.

(** *** The success flag of the other boards *)
(** The mine count of a flagged board may be wrong: cells that were never considered become mines. *)
Definition turn2 (k : nat) : list Z -> list Z := rotate (2 * k + 2).
Theorem C39_mine_count_refuted : (forall k l, Permutation l (turn2 k l)) /\
  exists b, laymine_solvable_adjust turn2 4 4 5 0 0 = Ok (b, true) /\ mine_count 4 4 b = 7%nat.
Proof.
  split; [intros; apply rotate_perm|]. destruct (laymine_solvable_adjust turn2 4 4 5 0 0) as [[b [|]]| | |] eqn:E; vm_compute in E.
  - exists b. split; [reflexivity|]. injection E as <-. vm_compute. reflexivity.
  - discriminate E.
  - discriminate E.
  - discriminate E.
  - discriminate E.
Qed.
(** and it may be unsolvable: *)
Definition turn1 (k : nat) : list Z -> list Z := rotate (k + 1).
Definition stuck_board : board := match laymine_solvable_adjust turn1 4 4 5 0 0 with Ok (b, _) => b | _ => [] end.
Lemma stuck_run : laymine_solvable_adjust turn1 4 4 5 0 0 = Ok (stuck_board, true).
Proof. vm_compute. reflexivity. Qed.
Lemma stuck_legal : legal_board 4 4 stuck_board. Proof. apply legal_boardb_ok. vm_compute. reflexivity. Qed.
Lemma stuck_zero : cell stuck_board (0, 0)%nat = 0. Proof. vm_compute. reflexivity. Qed.
Lemma stuck_not_solvable : is_solvable stuck_board 0 0 = Ok false. Proof. vm_compute. reflexivity. Qed.
Theorem C39_solvable_refuted : (forall k l, Permutation l (turn1 k l)) /\
  laymine_solvable_adjust turn1 4 4 5 0 0 = Ok (stuck_board, true) /\ ~ no_guess 4 4 stuck_board (0, 0)%nat.
Proof.
  split; [intros; apply rotate_perm|]. split; [exact stuck_run|]. intros Hn.
  assert (Hi : inb 4 4 (0, 0)%nat) by (split; cbn; lia).
  assert (H3 : (3 <= 4)%nat) by lia. assert (H16 : (4 * 4 <= 55)%nat) by lia.
  destruct (C36_zero_start H3 H3 stuck_legal Hi stuck_zero (@C36_small_board 4 4 stuck_board (0, 0)%nat H16)) as (r & E & Hr).
  apply Hr in Hn. rewrite stuck_not_solvable in E. injection E as E. rewrite <- E in Hn. discriminate Hn.
Qed.
Print Assumptions C39_solvable_refuted.

(** *** cases *)
Example C39_case : (forall k l, Permutation l (turn2 k l)) /\ inb 4 4 (0, 0)%nat /\
  (exists b, laymine_solvable_adjust turn2 4 4 3 0 0 = Ok (b, true)) /\
  (exists b, laymine_solvable_adjust turn2 4 4 12 0 0 = Ok (b, true)) /\
  (exists b, laymine_solvable_adjust turn2 4 4 13 0 0 = Ok (b, false)).
Proof.
  split; [intros; apply rotate_perm|]. split; [split; cbn; lia|].
  split; [|split]; eexists; vm_compute; reflexivity.
Qed.
