(** * PropsSolver: the properties of the constraint matrices and of the deduction engines
    (C27-C32, C34, C35).

    A *position* is the visible board. [satisfiable row column g]: [g] is rectangular, non-empty and
    some placement of mines agrees with it ([consistent], SolverSpec.v). [determined .. p b]: [p] is a
    mine (b = true) / safe (b = false) in every placement that agrees with the position.
    [deductions g bl bd N I] (PosProofs.v): [bl] are the blocks and [bd] the board after
    [refresh_matrixs(g)] and any sequence of calls of [solve_direct] and [solve_minus] on them; [N] and
    [I] are the safe cells and the mines returned by those calls so far. *)
From Verif Require Import Base Spec BaseFacts Matrix Solve SolverSpec MatrixProofs LinFacts DirectProofs
  ChunkProofs SolveProofs CombineProofs TableProofs EnumProofs EnumBlock EnumSolve PosProofs MatrixMeaning.
Open Scope Z_scope.

(** ** a checker for the concrete cases *)
Definition consistentb (row column : nat) (g : board) (m : placement) : bool :=
  forallb (fun p => implb (cell g p =? 11) (m p) && implb (negb (cell g p =? 10) && negb (cell g p =? 11)) (negb (m p)) &&
                    implb ((0 <=? cell g p) && (cell g p <? 10)) (cell g p =? Z.of_nat (adj_count row column m p)))
          (positions row column).
Lemma consistentb_ok row column g m : consistentb row column g m = true -> consistent row column g m.
Proof.
  intros H p Hp. unfold consistentb in H. rewrite forallb_forall in H. specialize (H p ltac:(now apply in_positions)).
  rewrite !andb_true_iff in H. destruct H as [[H1 H2] H3]. unfold number. split; [|split].
  - intros E. rewrite E in H1. exact H1.
  - intros E1 E2. destruct (Z.eqb_spec (cell g p) 10), (Z.eqb_spec (cell g p) 11); try contradiction. cbn in H2. now destruct (m p).
  - intros [E1 E2]. apply Z.leb_le in E1. apply Z.ltb_lt in E2. rewrite E1, E2 in H3. cbn in H3. now apply Z.eqb_eq.
Qed.
Lemma satisfiable_ok row column g m : rect row column g -> (0 < row)%nat -> consistentb row column g m = true -> satisfiable row column g.
Proof. intros H1 H2 H3. split; auto. split; auto. exists m. now apply consistentb_ok. Qed.

(** a 2x3 position: two open ones above three covered cells, one covered cell on their right *)
Definition demo_pos : board := [[1; 1; 10]; [10; 10; 10]].
Lemma demo_sat : satisfiable 2 3 demo_pos.
Proof. apply (@satisfiable_ok 2 3 demo_pos (fun p => posb p (1, 0)%nat)); [split; [reflexivity|repeat constructor]|lia|reflexivity]. Qed.

(** ** C27 *)
Theorem C27_solve_direct_sound : forall row column g bl bd N I,
  satisfiable row column g -> deductions g bl bd N I ->
  exists bl' safe mines bd', solve_direct bl bd = Ok (bl', safe, mines, bd') /\
    deductions g bl' bd' (N ++ safe) (I ++ mines) /\
    (forall p, In p safe -> determined row column g p false) /\
    (forall p, In p mines -> determined row column g p true) /\
    marked_with row column bd safe mines bd'.
Proof. exact direct_call. Qed.
Print Assumptions C27_solve_direct_sound.

(** ** C28 *)
Theorem C28_solve_minus_sound : forall row column g bl bd N I,
  satisfiable row column g -> deductions g bl bd N I ->
  exists bl' safe mines bd', solve_minus bl bd = Ok (bl', safe, mines, bd') /\
    deductions g bl' bd' (N ++ safe) (I ++ mines) /\
    (forall p, In p safe -> determined row column g p false) /\
    (forall p, In p mines -> determined row column g p true) /\
    marked_with row column bd safe mines bd'.
Proof. exact minus_call. Qed.
Print Assumptions C28_solve_minus_sound.

Definition demo_start : list block := match refresh_matrixs demo_pos with Ok (bl, _, _) => bl | _ => [] end.
(** the premises are met: the demo position, after one solve_direct; solve_minus then finds two safe cells *)
Example C28_case : exists bl bd, deductions demo_pos bl bd [] [] /\
  exists bl' bd', solve_minus bl bd = Ok (bl', [(1, 2); (0, 2)]%nat, [], bd').
Proof.
  eexists _, _. split.
  - change ([] : list pos) with ([] ++ [] : list pos). eapply (@ded_direct demo_pos demo_start demo_pos [] []); [eapply ded_start; vm_compute; reflexivity|vm_compute; reflexivity].
  - eexists _, _. vm_compute. reflexivity.
Qed.

(** ** C29 *)
(** Soundness for every block size; within the enumeration limit the safe cells found so far plus
    those returned are exactly the covered cells next to a number that are safe in every placement;
    of the mines only those are guaranteed to be returned whose column of coefficients differs from
    every other column ([alone]). *)
Theorem C29_solve_enumerate_partial : forall row column g bl bd N I,
  satisfiable row column g -> deductions g bl bd N I ->
  exists safe mines, solve_enumerate bl = Ok (safe, mines) /\
    (forall p, In p safe -> front_cell row column g p /\ determined row column g p false) /\
    (forall p, In p mines -> front_cell row column g p /\ determined row column g p true) /\
    (Forall (fun B => length (vars B) <= ENUM_LIMIT)%nat bl ->
       (forall p, In p (N ++ safe) <-> front_cell row column g p /\ determined row column g p false) /\
       (forall p B, In B bl -> In p (vars B) -> alone B p -> determined row column g p true -> In p mines)).
Proof. exact enumerate_call. Qed.
Print Assumptions C29_solve_enumerate_partial.

(** the same for any system of equations (not only those of a position) *)
Theorem C29_solve_enumerate_blocks : forall bl v0,
  Forall good_system bl -> NoDup (concat (map vars bl)) -> sats v0 bl -> Forall (fun B => length (vars B) <= ENUM_LIMIT)%nat bl ->
  exists N I, solve_enumerate bl = Ok (N, I) /\
    (forall p, In p N <-> In p (concat (map vars bl)) /\ forall v, sats v bl -> v p = false) /\
    (forall p, In p I <-> exists B, In B bl /\ In p (vars B) /\ alone B p /\ forall v, sats v bl -> v p = true).
Proof. intros bl v0 H. apply solve_enumerate_ok. eapply Forall_impl; [apply good_system_block|exact H]. Qed.
Print Assumptions C29_solve_enumerate_blocks.

(** Completeness for mines fails: "2" between two covered cells. Both are mines in every placement,
    solve_enumerate returns nothing (it compares the number of solutions of one cell with that of the
    whole group of equal columns). *)
Theorem C29_mines_complete_refuted : exists row column g bl k1 k2 p,
  satisfiable row column g /\ refresh_matrixs g = Ok (bl, k1, k2) /\
  front_cell row column g p /\ determined row column g p true /\ solve_enumerate bl = Ok ([], []).
Proof.
  exists 1%nat, 3%nat, [[10; 2; 10]], [Blk [([1; 1], 2)] [(0, 0)%nat; (0, 2)%nat]], 0%nat, 0%nat, (0, 0)%nat.
  split. { apply (@satisfiable_ok 1 3 _ (fun p => negb (posb p (0, 1)%nat))); [split; [reflexivity|repeat constructor]|lia|reflexivity]. }
  split; [vm_compute; reflexivity|]. split; [|split; [|vm_compute; reflexivity]].
  - split; [split; cbn; lia|]. split; [reflexivity|]. exists (0, 1)%nat. repeat split; cbn; try lia. all: try congruence.
  - intros m Hm. destruct (Hm (0, 1)%nat) as (_ & _ & H); [split; cbn; lia|].
    assert (Hn : number [[10; 2; 10]] (0, 1)%nat) by (cbv; split; congruence). specialize (H Hn).
    change (cell [[10; 2; 10]] (0, 1)%nat) with 2 in H. unfold adj_count in H.
    change (positions 1 3) with [(0, 0); (0, 1); (0, 2)]%nat in H. rewrite !count_cons, count_nil in H.
    cbn [adjb posb negb andb nearb fst snd Nat.eqb Nat.leb Nat.add] in H. destruct (m (0, 0)%nat), (m (0, 2)%nat); cbn in H; auto; lia.
Qed.
Print Assumptions C29_mines_complete_refuted.

(** ** C30 *)
(** refresh_matrix: one system. Its equations are those of the positive numbers next to a covered
    cell; a placement satisfies it iff each of these numbers is the number of flags plus the number
    of covered mines around it. *)
Theorem C30_refresh_matrix : forall row column g, rect row column g -> (0 < row)%nat ->
  exists B, refresh_matrix g = Ok B /\ wf B /\
    (forall q, In q (vars B) <-> inb row column q /\ cell g q = 10 /\
       exists n, front_number row column g n /\ 0 < cell g n /\ near n q) /\
    (forall v, sat v B <-> forall n, front_number row column g n -> 0 < cell g n -> number_ok row column g v n).
Proof. exact refresh_matrix_meaning. Qed.
Print Assumptions C30_refresh_matrix.
(** refresh_matrixs: the blocks together, zeros included *)
Theorem C30_refresh_matrixs : forall row column g, rect row column g -> (0 < row)%nat ->
  exists bl k1 k2, refresh_matrixs g = Ok (bl, k1, k2) /\
    (forall q, In q (concat (map vars bl)) <-> front_cell row column g q) /\
    (forall v, sats v bl <-> forall n, front_number row column g n -> number_ok row column g v n) /\
    (forall v m0, consistent row column g m0 ->
       (sats v bl <-> consistent row column g (fun p => flaggedb g p || coveredb g p && v p))).
Proof. exact refresh_matrixs_meaning. Qed.
Print Assumptions C30_refresh_matrixs.
Example C30_case : exists bl, refresh_matrixs demo_pos = Ok (bl, 0%nat, 0%nat) /\ exists v, sats v bl.
Proof.
  eexists. split; [vm_compute; reflexivity|]. exists (fun p => posb p (1, 0)%nat). repeat constructor.
Qed.

(** ** C31 *)
(** [numss]: the numbers of each block. Every number next to a covered cell is in exactly one block;
    every covered cell next to a number is an unknown of exactly one block; a block's equations are
    exactly the equations of its numbers, and all covered neighbours of its numbers are its unknowns. *)
Theorem C31_blocks_partition : forall row column g, rect row column g -> (0 < row)%nat ->
  exists bl k1 k2 numss, refresh_matrixs g = Ok (bl, k1, k2) /\
    Forall2 (describes row column g) numss bl /\
    NoDup (concat numss) /\ (forall n, In n (concat numss) <-> front_number row column g n) /\
    NoDup (concat (map vars bl)) /\ (forall q, In q (concat (map vars bl)) <-> front_cell row column g q) /\
    k1 = count (fun p => (cell g p =? 10) && negb (existsb (fun q => cell g q <? 10) (zone row column (fst p) (snd p)))) (positions row column) /\
    k2 = count (fun p => cell g p =? 11) (positions row column).
Proof. exact refresh_matrixs_partition. Qed.
Print Assumptions C31_blocks_partition.
(** chunk_matrixes (used by the engines after each deduction) splits every block into parts with
    disjoint unknowns without changing the solutions *)
Theorem C31_chunk_matrixes : forall bl, Forall good_system bl ->
  exists bl', chunk_matrixes bl = Ok bl' /\ Permutation (concat (map vars bl)) (concat (map vars bl')) /\
    (forall v, sats v bl <-> sats v bl') /\ Forall good_system bl'.
Proof.
  intros bl H. destruct (@chunk_matrixes_ok bl) as (bl' & E & P & S & G); [eapply Forall_impl; [apply good_system_block|exact H]|].
  exists bl'. split; auto. split; auto. split; auto. eapply Forall_impl; [apply good_block_system|exact G].
Qed.
Print Assumptions C31_chunk_matrixes.

(** ** C32 *)
(** For a block with 0/1 coefficients, distinct unknowns each occurring in an equation, equations
    with 1 to 8 unknowns ([good_system]) and non-negative right hand sides (all blocks of a position with a
    consistent placement are like that): after combine, the table has for every number k of mines with
    at least one solution the line (k, number of solutions with k mines, for each group of equal
    columns the number of those where a given cell of the group is a mine). *)
Theorem C32_table : forall B, good_system B -> Forall (fun e => 0 <= snd e) (eqs B) ->
  exists A x groups, combine_cells (map fst (eqs B)) (vars B) = Ok (A, x, groups) /\
  ((length groups <= ENUM_LIMIT)%nat ->
   (solutions B = [] /\ cal_table_minenum_recursion A x (map snd (eqs B)) groups = Err 1) \/
   exists table, cal_table_minenum_recursion A x (map snd (eqs B)) groups = Ok table /\
     (forall k c cells, In (k, c, cells) table ->
        c = n_sol B k /\ length cells = length groups /\
        forall j q, (j < length groups)%nat -> In q (nth j groups []) -> nth j cells 0%nat = n_sol_at B k (nth q (vars B) (0, 0)%nat)) /\
     (forall k, n_sol B k <> 0%nat -> In k (map (fun l => fst (fst l)) table)) /\
     NoDup (map (fun l => fst (fst l)) table)).
Proof. intros B H. destruct (good_system_block H) as [H1 H2]. now apply table_meaning. Qed.
Print Assumptions C32_table.
(** the counts cannot overflow 64 bits when the block has at most 55 unknowns *)
Theorem C32_counts_small : forall B k, (n_sol B k <= 2 ^ length (vars B))%nat.
Proof. exact n_sol_small. Qed.
Print Assumptions C32_counts_small.
Definition demo_block : block := Blk [([1; 1; 0], 1); ([1; 1; 1], 2)] [(0, 0); (0, 1); (0, 2)]%nat.
Example C32_case : good_system demo_block /\ n_sol demo_block 2 = 2%nat /\
  n_sol_at demo_block 2 (0, 2)%nat = 2%nat /\ n_sol_at demo_block 2 (0, 0)%nat = 1%nat.
Proof.
  split; [|repeat split; vm_compute; reflexivity].
  unfold good_system, wf, wf_eq, demo_block; cbn [vars eqs].
  split; [split; [repeat (constructor; [cbn; split; [reflexivity|repeat constructor; auto]|]); constructor|repeat constructor; cbn; intuition congruence]|].
  split; [discriminate|]. split.
  - intros k Hk. destruct k as [|[|[|k]]]; cbn in Hk; try lia; [exists ([1; 1; 0], 1)|exists ([1; 1; 0], 1)|exists ([1; 1; 1], 2)]; cbn; auto.
  - repeat (constructor; [cbn; split; [auto|vm_compute; lia]|]). constructor.
Qed.

(** ** C34 *)
Theorem C34_combine : forall (A : list (list Z)) (x : list pos), Forall (fun r => length r = length x) A ->
  exists A' x' groups, combine_cells A x = Ok (A', x', groups) /\
    Permutation (concat groups) (seq 0 (length x)) /\
    (forall g i j, In g groups -> In i g -> (j < length x)%nat ->
       (In j g <-> forall r, In r A -> nth i r 0 = nth j r 0)) /\
    length x' = length groups /\ length A' = length A /\
    (forall k, (k < length groups)%nat -> exists h, hd_error (nth k groups []) = Some h /\ nth k x' (0, 0)%nat = nth h x (0, 0)%nat /\
       forall i, (i < length A)%nat -> nth k (nth i A' []) 0 = nth h (nth i A []) 0 * Z.of_nat (length (nth k groups []))) /\
    (** a row of the original system is the row of the merged one applied to the group totals *)
    (forall r v, In r A -> dot r x v = sumz (fun g => nth (hd 0%nat g) r 0 * Z.of_nat (count (fun j => v (nth j x (0, 0)%nat)) g)) groups).
Proof. exact combine_meaning. Qed.
Print Assumptions C34_combine.
Example C34_case : combine_cells [[1; 1; 0]; [1; 1; 1]] [(0, 0); (0, 1); (0, 2)]%nat = Ok ([[2; 0]; [2; 1]], [(0, 0); (0, 2)]%nat, [[0; 1]; [2]]%nat).
Proof. vm_compute. reflexivity. Qed.

(** ** C35 *)
(** [forget g]: every mark above 10 (flags included) is turned back into a covered cell, as the
    function does first. The last clause gives the exact answer: true iff the cell is among the safe
    cells and mines returned by the engines along some run of deductions followed by the enumeration. *)
Theorem C35_is_able_to_solve : forall row column g xy,
  satisfiable row column (forget g) -> rect row column g -> inb row column xy ->
  exists b, is_able_to_solve g xy = Ok b /\
    (b = true -> front_cell row column (forget g) xy /\ exists v, determined row column (forget g) xy v) /\
    (b = false -> (forall bl bd N I, deductions (forget g) bl bd N I -> Forall (fun B => length (vars B) <= ENUM_LIMIT)%nat bl) ->
       front_cell row column (forget g) xy -> ~ determined row column (forget g) xy false) /\
    (exists bl bd N I n i, deductions (forget g) bl bd N I /\ solve_enumerate bl = Ok (n, i) /\ (b = true <-> In xy (N ++ I ++ n ++ i))).
Proof. exact able_to_solve_ok. Qed.
Print Assumptions C35_is_able_to_solve.
Example C35_case : satisfiable 2 3 (forget demo_pos) /\ is_able_to_solve demo_pos (0, 2)%nat = Ok true /\ is_able_to_solve demo_pos (1, 1)%nat = Ok false.
Proof. split; [exact demo_sat|]. split; vm_compute; reflexivity. Qed.

(** mark_board and get_all_not_and_is_mine_on_board, the public wrappers of the engines *)
Theorem C35_mark_board : forall row column g, satisfiable row column g ->
  exists bd safe mines, mark_board g = Ok bd /\ marked_with row column g safe mines bd /\
    (forall p, In p safe -> front_cell row column g p /\ determined row column g p false) /\
    (forall p, In p mines -> front_cell row column g p /\ determined row column g p true).
Proof. exact mark_board_ok. Qed.
Print Assumptions C35_mark_board.
Theorem C35_all_on_board : forall row column g bl bd N I, satisfiable row column g -> deductions g bl bd N I ->
  exists n i bd', get_all_not_and_is_mine_on_board bl bd = Ok (n, i, bd') /\
    (forall p, In p n -> determined row column g p false) /\ (forall p, In p i -> determined row column g p true).
Proof. exact all_on_board_ok. Qed.
Print Assumptions C35_all_on_board.
