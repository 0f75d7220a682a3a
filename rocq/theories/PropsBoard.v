(** * Property theorems: laying mines, statistics, opening cells (C01-C10). *)
From Verif Require Import Base Spec BaseFacts LayMine LayMineProofs ShuffleProofs Metrics MetricsProofs
  Refresh RefreshProofs BBBVProofs.
Open Scope Z_scope.

(** C01. For every shuffle that permutes its input. *)
Theorem C01_laymine_correct : forall shuf row column minenum X0 Y0,
  (forall l, Permutation l (shuf l)) ->
  inb row column (X0, Y0) -> (minenum <= row * column - 1)%nat ->
  exists b, laymine shuf row column minenum X0 Y0 = Ok b /\
    legal_board row column b /\ mine_count row column b = minenum /\ is_mine b (X0, Y0) = false.
Proof. exact laymine_ok. Qed.
Print Assumptions C01_laymine_correct.
Example C01_example :
  (forall l : list Z, Permutation l (rev l)) /\ inb 3 4 (1, 2)%nat /\ (5 <= 3 * 4 - 1)%nat /\
  laymine (@rev Z) 3 4 5 1 2 = Ok [[-1; -1; 2; 0]; [-1; -1; 2; 0]; [-1; 3; 1; 0]].
Proof. split; [exact (@Permutation_rev Z)|]. split; [unfold inb; simpl; lia|]. split; [simpl; lia|]. vm_compute. reflexivity. Qed.

(** C02, restricted to boards at least two cells wide and high (see the refutation below). *)
Theorem C02_laymine_op_correct_partial : forall shuf row column minenum X0 Y0,
  (forall l, Permutation l (shuf l)) ->
  (2 <= row)%nat -> (2 <= column)%nat -> inb row column (X0, Y0) ->
  (minenum + count (nearb (X0, Y0)) (positions row column) <= row * column)%nat ->
  exists b, laymine_op shuf row column minenum X0 Y0 = Ok b /\
    legal_board row column b /\ mine_count row column b = minenum /\
    (forall q, inb row column q -> near (X0, Y0) q -> is_mine b q = false) /\
    cell b (X0, Y0) = 0.
Proof. exact laymine_op_ok. Qed.
Print Assumptions C02_laymine_op_correct_partial.
Example C02_example :
  (4 + count (nearb (1, 2)%nat) (positions 4 5) <= 4 * 5)%nat /\
  laymine_op (@rev Z) 4 5 4 1 2 = Ok [[-1; 2; 0; 0; 0]; [-1; 3; 0; 0; 0]; [-1; 3; 0; 0; 0]; [-1; 2; 0; 0; 0]].
Proof. split; vm_compute; [repeat constructor|reflexivity]. Qed.

(** On one-cell-wide boards laymine_op never returns a board (it panics), whatever the shuffle. *)
Theorem C02_laymine_op_thin_never_returns : forall shuf row column minenum X0 Y0 b,
  (forall l, length (shuf l) = length l) ->
  inb row column (X0, Y0) -> (row = 1 \/ column = 1)%nat ->
  laymine_op shuf row column minenum X0 Y0 <> Ok b.
Proof. exact laymine_op_thin. Qed.
Print Assumptions C02_laymine_op_thin_never_returns.

Theorem C02_laymine_op_refuted : exists row column minenum X0 Y0,
  inb row column (X0, Y0) /\
  (minenum + count (nearb (X0, Y0)) (positions row column) <= row * column)%nat /\
  laymine_op (fun l => l) row column minenum X0 Y0 = Panic.
Proof.
  exists 1%nat, 9%nat, 1%nat, 0%nat, 4%nat. split; [unfold inb; simpl; lia|].
  split; vm_compute; [repeat constructor|reflexivity].
Qed.
Print Assumptions C02_laymine_op_refuted.

(** C03. *)
Theorem C03_cal_board_numbers_correct : forall row column b,
  rect row column b -> (0 < row)%nat ->
  (forall p, inb row column p -> cell b p = 0 \/ cell b p = -1) ->
  exists b', cal_board_numbers b = Ok b' /\ rect row column b' /\
    forall p, inb row column p ->
      cell b' p = if is_mine b p then -1 else Z.of_nat (adj_count row column (is_mine b) p).
Proof. exact cal_board_numbers_ok. Qed.
Print Assumptions C03_cal_board_numbers_correct.
Example C03_example :
  cal_board_numbers [[0; -1; 0]; [0; 0; 0]; [-1; 0; 0]] = Ok [[1; -1; 1]; [2; 2; 1]; [-1; 1; 0]].
Proof. vm_compute. reflexivity. Qed.

(** C04. [OutOfFuel] only means that the finite random stream ran out. *)
Theorem C04_shuffle_permutes : forall l ws, Forall (fun t => 0 <= t) ws ->
  shuffle_ l ws = OutOfFuel \/ exists l' ws', shuffle_ l ws = Ok (l', ws') /\ Permutation l l'.
Proof. exact shuffle_ok. Qed.
Print Assumptions C04_shuffle_permutes.
Theorem C04_random_int_in_range : forall limit ws id ws',
  0 < limit -> Forall (fun t => 0 <= t) ws -> get_random_int limit ws = Ok (id, ws') ->
  0 <= id < limit /\ Forall (fun t => 0 <= t) ws'.
Proof. exact get_random_int_ok. Qed.
Print Assumptions C04_random_int_in_range.
(** Unbiased: for distinct elements every arrangement is the result of exactly one sequence of draws
    ([draws n ds]: n-1 draws, the i-th (from 0) between 0 and i+1), and each draw is uniform over its
    range: the 32-bit words that yield r are r, r + limit, r + 2 limit, ..., equally many for each r. *)
Theorem C04_shuffle_every_order : forall l l', Permutation l l' -> Z.of_nat (length l) <= 4294967295 ->
  exists ds, draws (length l) ds /\ shuffle_ l ds = Ok (l', []) /\
    (NoDup l -> forall ds', draws (length l) ds' -> shuffle_ l ds' = Ok (l', []) -> ds' = ds).
Proof.
  intros l l' P Hl. destruct (shuffle_onto P Hl) as (ds & Hd & E). exists ds. split; auto. split; auto.
  intros Nd ds' Hd' E'. symmetry. eapply shuffle_uniq; eauto.
Qed.
Print Assumptions C04_shuffle_every_order.
Theorem C04_random_int_uniform : forall limit, 0 < limit <= 4294967295 ->
  exists q, 0 < q /\ forall t r, 0 <= t < 4294967296 -> 0 <= r < limit ->
    (get_random_int limit [t] = Ok (r, []) <-> exists k, 0 <= k < q /\ t = r + k * limit).
Proof.
  intros limit Hl. exists (4294967295 / limit). split.
  - assert (1 <= 4294967295 / limit) by (apply Z.div_le_lower_bound; lia). lia.
  - intros t r Ht Hr. rewrite random_int_accept by lia. tauto.
Qed.
Print Assumptions C04_random_int_uniform.
Example C04_example : shuffle_ [10; 20; 30] [4294967295; 7; 5] = Ok ([10; 20; 30], []) /\
  shuffle_ [10; 20; 30] [8; 6] = Ok ([30; 10; 20], []).
Proof. split; vm_compute; reflexivity. Qed.

(** C05. *)
Theorem C05_cal_op_counts_openings : forall row column b,
  rect row column b -> (0 < row)%nat ->
  exists n, cal_op b = Ok n /\ components (zero_cell row column b) n.
Proof. exact cal_op_ok. Qed.
Print Assumptions C05_cal_op_counts_openings.
(** the number of components is well defined, so C05 determines cal_op *)
Theorem C05_components_unique : forall (P : pos -> Prop) n m,
  components P n -> components P m -> n = m.
Proof. exact components_unique. Qed.
Print Assumptions C05_components_unique.
Example C05_example : cal_op [[0; 1; 0]; [0; 1; 0]; [0; 0; 0]; [1; 1; 1]; [0; 1; -1]] = Ok 2%nat.
Proof. vm_compute. reflexivity. Qed.

(** C06. *)
Theorem C06_cal_isl_counts_islands : forall row column b,
  rect row column b -> (0 < row)%nat ->
  exists n, cal_isl b = Ok n /\ components (island_cell row column b) n.
Proof. exact cal_isl_ok. Qed.
Print Assumptions C06_cal_isl_counts_islands.
Example C06_example : cal_isl [[1; -1; 1; 0; 1; -1]; [1; 1; 1; 0; 1; 1]] = Ok 2%nat.
Proof. vm_compute. reflexivity. Qed.

(** C07. *)
Theorem C07_cal_cell_nums_histogram : forall row column b,
  rect row column b -> (0 < row)%nat -> (forall p, inb row column p -> cell b p <= 8) ->
  exists l, cal_cell_nums b = Ok l /\ length l = 9%nat /\
    forall k, (k < 9)%nat -> nth k l 0%nat = count (fun p => cell b p =? Z.of_nat k) (positions row column).
Proof. exact cal_cell_nums_ok. Qed.
Print Assumptions C07_cal_cell_nums_histogram.
Theorem C07_cell_nums_total : forall (b : board) (ps : list pos),
  (forall p, In p ps -> cell b p <= 8) ->
  list_sum (map (fun k => count (fun p => cell b p =? Z.of_nat k) ps) (seq 0 9)) =
  count (fun p => 0 <=? cell b p) ps.
Proof. exact cell_nums_sum. Qed.
Print Assumptions C07_cell_nums_total.
Example C07_example : cal_cell_nums [[1; -1; 1]; [2; 2; 1]; [-1; 1; 0]] = Ok [1; 4; 2; 0; 0; 0; 0; 0; 0]%nat.
Proof. vm_compute. reflexivity. Qed.

(** C08. [play b g ps] left-clicks the cells [ps] in order. *)
Theorem C08_bbbv_is_minimum_clicks : forall row column b,
  legal_board row column b -> (0 < row)%nat ->
  exists n, cal_bbbv b = Ok n /\
    (exists k, components (zero_cell row column b) k /\
       n = (k + count (island_cellb row column b) (positions row column))%nat) /\
    (exists ps g, length ps = n /\ (forall p, In p ps -> inb row column p) /\
       play b (mkboard row column 10) ps = Ok g /\
       forall q, inb row column q -> cell g q = if is_mine b q then 10 else cell b q) /\
    (forall ps g, (forall p, In p ps -> inb row column p) ->
       play b (mkboard row column 10) ps = Ok g ->
       (forall q, inb row column q -> is_mine b q = false -> cell g q = cell b q) ->
       (n <= length ps)%nat).
Proof. exact bbbv_minimal. Qed.
Print Assumptions C08_bbbv_is_minimum_clicks.
Theorem C08_island_cellb_meaning : forall row column b p,
  inb row column p -> island_cell row column b p <-> island_cellb row column b p = true.
Proof. exact island_cellb_iff. Qed.
Print Assumptions C08_island_cellb_meaning.
Example C08_example : legal_board 2 6 [[1; -1; 1; 0; 1; -1]; [1; 1; 1; 0; 1; 1]] /\
  cal_bbbv [[1; -1; 1; 0; 1; -1]; [1; 1; 1; 0; 1; 1]] = Ok 5%nat.
Proof.
  split; [|vm_compute; reflexivity]. split; [split; [reflexivity|repeat constructor]|].
  intros [i j] [Hi Hj]; cbn [fst snd] in *.
  assert (Hd : (i = 0 \/ i = 1)%nat) by lia.
  assert (Hj' : (j = 0 \/ j = 1 \/ j = 2 \/ j = 3 \/ j = 4 \/ j = 5)%nat) by lia.
  destruct Hd as [->| ->]; repeat (destruct Hj' as [->|Hj']; [vm_compute; auto|]); subst; vm_compute; auto.
Qed.

(** C09/C10. [opens] (Spec.v) is the set of cells a click list must open; [shown b q] is 15 on a
    mine and the real number elsewhere. The theorem covers ordinary openings (second clause and
    third clause) and clicks on mines (first two clauses). *)
Theorem C09_refresh_board_exact : forall row column b g clicks,
  rect row column b -> rect row column g -> (0 < row)%nat ->
  (forall p, inb row column p -> cell b p < 10) ->
  (forall p, In p clicks -> inb row column p) ->
  exists g', refresh_board b g clicks = Ok g' /\ rect row column g' /\
    (forall q, inb row column q -> opens row column b g clicks q ->
       cell g' q = if cell b q <? 0 then 15 else cell b q) /\
    ((exists p, opens row column b g clicks p /\ cell b p < 0) ->
       forall q, inb row column q -> ~ opens row column b g clicks q ->
         cell g' q = if (cell g q =? 11) && negb (is_mine b q) then 14 else cell g q) /\
    ((forall p, opens row column b g clicks p -> 0 <= cell b p) ->
       forall q, inb row column q -> ~ opens row column b g clicks q -> cell g' q = cell g q).
Proof. exact refresh_board_ok. Qed.
Print Assumptions C09_refresh_board_exact.
Example C09_example :
  let b := [[0; 1; -1]; [0; 1; 1]; [0; 0; 0]] in
  let g := [[10; 10; 10]; [11; 10; 10]; [10; 12; 10]] in
  rect 3 3 b /\ rect 3 3 g /\
  refresh_board b g [(2, 0)%nat] = Ok [[10; 10; 10]; [11; 1; 1]; [0; 0; 0]] /\
  refresh_board b g [(0, 2)%nat] = Ok [[10; 10; 15]; [14; 10; 10]; [10; 12; 10]].
Proof. repeat split; repeat constructor. Qed.

(** C10: a clicked mine explodes, wrong flags are crossed out, and on a legal board nothing but the
    clicked mine itself is revealed by that click. *)
Theorem C10_click_on_mine : forall row column b g p,
  legal_board row column b -> rect row column g -> (0 < row)%nat ->
  inb row column p -> is_mine b p = true ->
  exists g', refresh_board b g [p] = Ok g' /\ rect row column g' /\ cell g' p = 15 /\
    forall q, inb row column q -> q <> p ->
      cell g' q = if (cell g q =? 11) && negb (is_mine b q) then 14 else cell g q.
Proof. exact click_on_mine. Qed.
Print Assumptions C10_click_on_mine.

(** C51: laying is a bijection between arrangements of the minenum mines on the non-start cells and
    legal boards, so a uniform shuffle gives the uniform distribution on boards. *)
Theorem C51_laymine_bijective : forall row column minenum X0 Y0 b,
  inb row column (X0, Y0) -> (minenum <= row * column - 1)%nat ->
  legal_board row column b -> mine_count row column b = minenum -> is_mine b (X0, Y0) = false ->
  exists! dim, Permutation (repeat 0 (row * column - 1 - minenum) ++ repeat (-1) minenum) dim /\
    laymine (fun _ => dim) row column minenum X0 Y0 = Ok b.
Proof. exact laymine_bijective. Qed.
Print Assumptions C51_laymine_bijective.
