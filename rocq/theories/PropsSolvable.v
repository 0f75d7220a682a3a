(** * PropsSolvable: C36 (is_solvable) and C60 (unsolvable_structure). The vocabulary is in
    SolvableSpec.v. *)
From Verif Require Import Base Spec BaseFacts Metrics Refresh RefreshProofs Matrix Solve SolverSpec MatrixProofs
  EnumProofs Solvable SolvableSpec SolvableProofs UnsolvProofs UnsolvFound SolvableLoop PropsUtils.
Open Scope Z_scope.

(** ** C60. [unsolvable_structure] answers true exactly for the boards with a place that cannot be
    settled (a lone cell, a domino or a square in the sense of SolvableSpec.v); and then no start
    outside at most four cells, in particular no start on a zero, lets one win without guessing. *)
Theorem C60_unsolvable_structure : forall row column b, (3 <= row)%nat -> (3 <= column)%nat -> legal_board row column b ->
  exists r, unsolvable_structure b = Ok r /\ (r = true <-> unsettled row column b).
Proof. intros row column b Hr Hc [Hb _]. now apply unsolvable_ok. Qed.
Theorem C60_unsettled_needs_guess : forall row column b, (3 <= row)%nat -> (3 <= column)%nat -> legal_board row column b ->
  unsettled row column b ->
  exists D, (length D <= 4)%nat /\
    forall start, inb row column start -> is_mine b start = false -> ~ In start D -> ~ no_guess row column b start.
Proof.
  intros row column b Hr Hc Hl Hu. destruct (unsettled_amb Hr Hc Hu) as (D & Ht & Hlen & _). exists D. split; auto.
  intros start Hs Hm Hd. now apply (twin_unsolvable Hl Ht).
Qed.
Theorem C60_zero_start : forall row column b start, (3 <= row)%nat -> (3 <= column)%nat -> legal_board row column b ->
  unsolvable_structure b = Ok true -> inb row column start -> cell b start = 0 -> ~ no_guess row column b start.
Proof.
  intros row column b start Hr Hc Hl Hu Hs Hz.
  destruct (C60_unsolvable_structure Hr Hc Hl) as (r & E & H). rewrite E in Hu. injection Hu as ->.
  destruct (unsettled_amb Hr Hc (proj1 H eq_refl)) as (D & Ht & Hlen & Hmine).
  assert (Hm : is_mine b start = false) by (unfold is_mine; now rewrite Hz).
  apply (twin_unsolvable Hl Ht); auto. intros Hd. destruct (Hmine start Hd Hm) as (q & Hq & Ha & Hqm).
  destruct (proj2 Hl start Hs) as [E'|E']; [congruence|]. rewrite Hz in E'.
  assert (adj_count row column (is_mine b) start <> 0)%nat; [|lia].
  unfold adj_count, count. intros E0. apply length_zero_iff_nil in E0.
  assert (In q []) as []. rewrite <- E0. apply filter_In. split; [now apply in_positions|].
  destruct (adjb_spec start q); [now rewrite Hqm|contradiction].
Qed.

(** ** C36. [is_solvable] always answers; "true" means that the board can be won from the start
    without guessing; "false", when no structure is reported and the fronts stay within 55 cells, that
    it cannot. *)
Theorem C36_is_solvable : forall row column b x0 y0, (3 <= row)%nat -> (3 <= column)%nat -> legal_board row column b ->
  inb row column (x0, y0) -> is_mine b (x0, y0) = false ->
  exists r, is_solvable b x0 y0 = Ok r /\
    (r = true -> no_guess row column b (x0, y0)) /\
    (r = false -> unsolvable_structure b = Ok false -> small_fronts row column b (x0, y0) 55 ->
       ~ no_guess row column b (x0, y0)).
Proof.
  intros row column b x0 y0 Hr Hc Hl Hi Hm. assert (Hb : rect row column b) by apply Hl.
  assert (Hrow : (0 < row)%nat) by lia.
  unfold is_solvable. destruct (unsolvable_ok Hr Hc Hb) as (u & E & Hu). rewrite E. cbn [bind].
  destruct u; [exists false; split; [reflexivity|split; discriminate]|].
  rewrite (ncolsR_ok Hb Hrow), (nrows_ok Hb). cbn [bind].
  destruct (first_state Hl Hrow Hi Hm) as (g & known & E1 & S). rewrite E1. cbn [bind].
  rewrite (victory_ok Hl Hrow (st_rect S)). cbn [bind].
  destruct (existsb (fun p => (cell g p =? 10) && negb (is_mine b p)) (positions row column)) eqn:Ew; cbn [negb].
  - destruct (@loop_ok row column b (x0, y0) Hl Hrow Hi Hm (Datatypes.S (row * column)) g known S) as (r & Er & G1 & G2).
    + apply existsb_exists in Ew as (p & Hp & Hb'). apply in_positions in Hp. apply andb_true_iff in Hb' as [B1 B2]. exists p. split; auto. split; [now apply Z.eqb_eq|]. now destruct (is_mine b p).
    + unfold cov. pose proof (count_le (coveredb g) (positions row column)) as H. rewrite length_positions in H. lia.
    + exists r. split; [exact Er|]. split; auto.
  - exists true. split; auto. split; [intros _; eapply won_no_guess; eauto|discriminate].
Qed.
(** For starts on a zero the answer is exact. *)
Theorem C36_zero_start : forall row column b x0 y0, (3 <= row)%nat -> (3 <= column)%nat -> legal_board row column b ->
  inb row column (x0, y0) -> cell b (x0, y0) = 0 -> small_fronts row column b (x0, y0) 55 ->
  exists r, is_solvable b x0 y0 = Ok r /\ (r = true <-> no_guess row column b (x0, y0)).
Proof.
  intros row column b x0 y0 Hr Hc Hl Hi Hz Hs. assert (Hm : is_mine b (x0, y0) = false) by (unfold is_mine; now rewrite Hz).
  destruct (C36_is_solvable Hr Hc Hl Hi Hm) as (r & E & H1 & H2). exists r. split; auto. split; auto.
  intros Hn. destruct r; auto. exfalso. destruct (C60_unsolvable_structure Hr Hc Hl) as (u & Eu & Hu).
  destruct u; [exact (C60_zero_start Hr Hc Hl Eu Hi Hz Hn)|exact (H2 eq_refl Eu Hs Hn)].
Qed.
(** Boards of at most 55 cells have small fronts. *)
Theorem C36_small_board : forall row column b start, (row * column <= 55)%nat -> small_fronts row column b start 55.
Proof. intros row column b start H l _. etransitivity; [apply count_le|]. now rewrite length_positions. Qed.

(** *** cases *)
Definition easy_board : board :=
  [[-1; 1; 0; 0]; [1; 1; 0; 0]; [0; 0; 1; 1]; [0; 0; 1; -1]].
Lemma easy_legal : legal_board 4 4 easy_board. Proof. now apply legal_boardb_ok. Qed.
Example C36_case : is_solvable easy_board 0 3 = Ok true /\ no_guess 4 4 easy_board (0, 3)%nat.
Proof.
  assert (E : is_solvable easy_board 0 3 = Ok true) by (vm_compute; reflexivity). split; [exact E|].
  destruct (@C36_is_solvable 4 4 easy_board 0 3) as (r & E' & H & _); [lia|lia|apply easy_legal|split; cbn; lia|reflexivity|].
  rewrite E in E'. injection E' as <-. auto.
Qed.
(** a pair in the corner that no number tells apart *)
Definition pair_board : board :=
  [[-1; 3; -1; 2]; [1; 3; -1; 2]; [0; 1; 1; 1]; [0; 0; 0; 0]].
Lemma pair_legal : legal_board 4 4 pair_board. Proof. now apply legal_boardb_ok. Qed.
Example C60_case : unsolvable_structure pair_board = Ok true /\ ~ no_guess 4 4 pair_board (3, 0)%nat /\
  is_solvable pair_board 3 0 = Ok false /\ unsolvable_structure easy_board = Ok false.
Proof.
  assert (E : unsolvable_structure pair_board = Ok true) by (vm_compute; reflexivity). split; [exact E|]. split.
  - apply C60_zero_start; auto; [apply pair_legal|split; cbn; lia].
  - split; vm_compute; reflexivity.
Qed.
(** a board without any structure that still needs a guess *)
Definition guess_board : board :=
  [[2; -1; -1; 1]; [-1; 3; 2; 1]; [1; 1; 0; 0]; [0; 0; 0; 0]].
Lemma guess_legal : legal_board 4 4 guess_board. Proof. now apply legal_boardb_ok. Qed.
Example C36_case_false : unsolvable_structure guess_board = Ok false /\ is_solvable guess_board 2 2 = Ok false /\
  ~ no_guess 4 4 guess_board (2, 2)%nat.
Proof.
  assert (E : is_solvable guess_board 2 2 = Ok false) by (vm_compute; reflexivity).
  split; [vm_compute; reflexivity|]. split; [exact E|].
  destruct (@C36_zero_start 4 4 guess_board 2 2) as (r & E' & H); [lia|lia|apply guess_legal|split; cbn; lia|reflexivity|apply C36_small_board; cbn; lia|].
  rewrite E in E'. injection E' as <-. intros Hn. apply H in Hn. discriminate.
Qed.
(** Off a zero the answer "false" can be wrong: the only safe cell is the start itself. *)
Definition walled_board : board := [[3; -1; -1]; [-1; -1; -1]; [-1; -1; -1]].
Theorem C36_false_off_zero_refuted : legal_board 3 3 walled_board /\ is_solvable walled_board 0 0 = Ok false /\
  no_guess 3 3 walled_board (0, 0)%nat.
Proof.
  split; [now apply legal_boardb_ok|]. split; [vm_compute; reflexivity|]. exists [(0, 0)%nat]. split; [constructor|].
  intros p Hp Hm. assert (Hin : In p (positions 3 3)) by now apply in_positions.
  cbn in Hin. repeat (destruct Hin as [<-|Hin]; [first [now left|discriminate Hm]|]). contradiction.
Qed.
(** Boards with fewer than three rows or columns (the source asks for more than 6x6) crash. *)
Example C36_tiny_boards_crash :
  is_solvable [[0; 0; 0]] 0 0 = Panic /\ is_solvable [[0; 1; -1]; [0; 1; 1]] 0 0 = Panic /\
  is_solvable [[0; 0]; [1; 1]; [-1; 1]] 0 0 = Panic.
Proof. now vm_compute. Qed.
