(** * PropsStore: SafeBoard, Board and GameBoard (C23-C26). *)
From Verif Require Import Base Spec BaseFacts LayMine Metrics MetricsProofs BBBVProofs Matrix Solve SolverSpec PosProofs
  SafeBoard SafeBoardProofs BoardCache StoreProofs PropsSolver.
Open Scope Z_scope.

(** ** C23 *)
(** [legal_draw]: the masks are in the ranges the program draws them from; [storable v]: -3 <= v <= 16.
    Every value except 9 reads back as itself; 9 (not a cell value) reads back as 10. [Ok] includes the
    absence of 32-bit overflow. *)
Theorem C23_readback : forall (v : board) row column rnd k,
  rect row column v -> Forall (Forall storable) v -> Forall legal_draw rnd -> (length (concat v) <= length rnd)%nat ->
  exists rs rest, (forall s, sboard_set s v rnd = Ok (SBoard rs (s_counter s), rest)) /\
    sboard_new v rnd = Ok (SBoard rs 0, rest) /\
    (forall i j, inb row column (i, j) -> sboard_index (SBoard rs k) i j = Ok (readback (cell v (i, j)))) /\
    sboard_into (SBoard rs k) = Ok (map (map readback) v) /\
    s_get_row (SBoard rs k) = row /\ ((0 < row)%nat -> s_get_column (SBoard rs k) = Ok column).
Proof.
  intros v row column rnd k Hr Hv Hd Hl. destruct (rows_new_ok Hv Hd Hl) as (rs & E & F). exists rs, (skipn (length (concat v)) rnd).
  split; [intros s; unfold sboard_set; now rewrite E|]. split; [unfold sboard_new; now rewrite E|]. split; [|now apply stored_into].
  intros i j [Hi Hj]. cbn in Hi, Hj. pose proof (rect_row_error Hr Hi) as Er. rewrite (@stored_index rs v i j k _ F Er); auto. now rewrite (rect_row Hr Hi).
Qed.
Print Assumptions C23_readback.
Theorem C23_faithful : forall v, v <> 9 -> readback v = v.
Proof. intros v H. unfold readback. now destruct (Z.eqb_spec v 9). Qed.
Print Assumptions C23_faithful.
Theorem C23_unstorable : forall v d, ~ storable v -> legal_draw d -> encode v d = Panic.
Proof. exact encode_bad. Qed.
Print Assumptions C23_unstorable.
Example C23_case : (let* (s, _) := sboard_new [[1; -1]; [10; 16]] (repeat (-200000000, 10000, -10000000) 4) in sboard_into s) = Ok [[1; -1]; [10; 16]].
Proof. vm_compute. reflexivity. Qed.

(** ** C24 *)
(** Iterating yields the internal codes ([code_of], the table of [encode]), not the stored values. *)
Theorem C24_iter_yields_codes : forall v rnd, Forall storable v -> Forall legal_draw rnd -> (length v <= length rnd)%nat ->
  exists r rest, row_new v rnd = Ok (r, rest) /\ row_iter (S (length v)) r = Ok (map code_of v).
Proof.
  intros v rnd Hv Hd Hl. destruct (row_new_ok Hv Hd Hl) as (r & E & Hh & Hc). exists r, (skipn (length v) rnd). split; auto.
  pose proof (@row_iter_from r v 0 Hh ltac:(lia) (S (length v)) ltac:(lia)) as H. change (skipn 0 v) with v in H. rewrite <- H. destruct r as [v1 v2 v3 c]. cbn in Hc |- *. now rewrite Hc.
Qed.
Print Assumptions C24_iter_yields_codes.
Theorem C24_refuted : forall d, legal_draw d -> exists r rest vec, row_new [1] [d] = Ok (r, rest) /\
  row_into_vec r = Ok vec /\ vec = [1] /\ row_iter 2 r = Ok [16].
Proof.
  intros d Hd. assert (Hs : Forall storable [1]) by (repeat constructor; unfold storable; lia). assert (Hds : Forall legal_draw [d]) by (repeat constructor; auto).
  destruct (@C24_iter_yields_codes [1] [d] Hs Hds) as (r & rest & E & I); [cbn; lia|]. destruct (@row_new_ok [1] [d] Hs Hds) as (r' & E' & Hh & _); [cbn; lia|].
  rewrite E' in E. injection E as <- <-. exists r', (skipn 1 [d]), [1]. split; auto. split; [|split; [auto|exact I]].
  unfold row_into_vec. destruct Hh as (L & Hh). rewrite L. rewrite (@holds_vec r' [1]); [reflexivity|]. split; auto.
Qed.
Print Assumptions C24_refuted.

(** ** C25 *)
(** The exact answer to every query after every history of queries ([answer], StoreProofs.v): cell
    counts are always right; islands only the first time (then 0); 3BV only the first time (then 0) and,
    if [op] was asked before, without the openings; openings are right unless the first query among
    bbbv/op was op and it is not the first. *)
Theorem C25_every_answer : forall row column b qs,
  legal_board row column b -> (0 < row)%nat -> Forall legal_query qs ->
  exists isle op isl cells, cal3BVonIsland b = Ok isle /\ cal_op b = Ok op /\ cal_isl b = Ok isl /\ cal_cell_nums b = Ok cells /\
    asks (cboard_new b) qs = Ok (answers isle op isl cells [] qs).
Proof.
  intros row column b qs [Hr Hb] H0 Hq.
  destruct (cal_op_ok Hr H0) as (op & E1 & _). destruct (cal_isl_ok Hr H0) as (isl & E2 & _).
  pose proof (cal3BVonIsland_ok Hr H0) as E3. destruct (@cal_cell_nums_ok row column b Hr H0) as (cells & E4 & L4 & _).
  { intros p Hp. pose proof (adj_count_le row column (is_mine b) p). destruct (Hb p Hp) as [E|E]; lia. }
  do 4 eexists. split; [exact E3|]. split; [exact E1|]. split; [exact E2|]. split; [exact E4|].
  eapply asks_ok; eauto. now apply new_ok.
Qed.
Print Assumptions C25_every_answer.
(** the part of the property that holds: cell counts always, each other statistic on a new Board *)
Theorem C25_stable_partial : forall row column b qs k,
  legal_board row column b -> (0 < row)%nat -> Forall legal_query qs -> (k < 9)%nat ->
  exists l bbbv op isl, asks (cboard_new b) (qs ++ [Qcell k]) = Ok (l ++ [count (fun p => cell b p =? Z.of_nat k) (positions row column)]) /\
    cal_bbbv b = Ok bbbv /\ cal_op b = Ok op /\ cal_isl b = Ok isl /\
    asks (cboard_new b) [Qbbbv; Qop; Qisl] = Ok [bbbv; op; isl] /\ asks (cboard_new b) [Qop] = Ok [op].
Proof.
  intros row column b qs k Hb H0 Hq Hk. pose proof Hb as [Hr Hc].
  destruct (@C25_every_answer row column b (qs ++ [Qcell k]) Hb H0) as (isle & op & isl & cells & E1 & E2 & E3 & E4 & A); [apply Forall_app; split; [auto|constructor; [exact Hk|constructor]]|].
  destruct (@cal_cell_nums_ok row column b Hr H0) as (cells' & E4' & L4 & H4). { intros p Hp. pose proof (adj_count_le row column (is_mine b) p). destruct (Hc p Hp) as [E|E]; lia. }
  rewrite E4 in E4'. injection E4' as <-.
  exists (answers isle op isl cells [] qs), (isle + op)%nat, op, isl. split; [rewrite A|].
  - f_equal. rewrite <- (H4 k Hk). enough (G : forall bef, answers isle op isl cells bef (qs ++ [Qcell k]) = answers isle op isl cells bef qs ++ [nth k cells 0%nat]) by apply G. clear. induction qs as [|q qs IH]; intros bef; [reflexivity|]. cbn [answers app]. now rewrite IH.
  - split; [unfold cal_bbbv; rewrite E1, E2; reflexivity|]. split; auto. split; auto.
    destruct (@C25_every_answer row column b [Qbbbv; Qop; Qisl] Hb H0) as (i1 & o1 & s1 & c1 & F1 & F2 & F3 & F4 & B1); [repeat constructor|].
    destruct (@C25_every_answer row column b [Qop] Hb H0) as (i2 & o2 & s2 & c2 & G1 & G2 & G3 & G4 & B2); [repeat constructor|].
    replace i1 with isle in * by congruence. replace o1 with op in * by congruence. replace s1 with isl in * by congruence. replace o2 with op in * by congruence.
    split; [exact B1|exact B2].
Qed.
Print Assumptions C25_stable_partial.
(** asking twice *)
Theorem C25_refuted : exists b, legal_board 1 4 b /\ cal_bbbv b = Ok 2%nat /\ cal_op b = Ok 1%nat /\ cal_isl b = Ok 1%nat /\
  asks (cboard_new b) [Qbbbv; Qbbbv] = Ok [2; 0]%nat /\ asks (cboard_new b) [Qop; Qop] = Ok [1; 0]%nat /\
  asks (cboard_new b) [Qop; Qbbbv] = Ok [1; 1]%nat /\ asks (cboard_new b) [Qisl; Qisl] = Ok [1; 0]%nat.
Proof.
  exists [[0; 1; -1; 1]]. split; [|repeat split; vm_compute; reflexivity].
  split; [split; [reflexivity|repeat constructor]|]. intros [i j] [Hi Hj]; cbn [fst snd] in *. assert (i = 0)%nat as -> by lia.
  destruct j as [|[|[|[|j]]]]; try lia; vm_compute; auto.
Qed.
Print Assumptions C25_refuted.

(** ** C26 *)
Theorem C26_first_position_partial : forall row column g n qs, satisfiable row column (forget g) -> rect row column g ->
  exists s, gsession (gboard_new n) (Gset g :: map Gask qs) = Ok (map (gpick s) qs) /\ marked_state row column g s.
Proof. exact gsession_ok. Qed.
Print Assumptions C26_first_position_partial.
Example C26_case : satisfiable 2 3 (forget demo_pos) /\ rect 2 3 demo_pos /\
  gsession (gboard_new 2) [Gset demo_pos; Gask Gbasic_not; Gask Genum_is; Gask Gbasic_is; Gask Gbasic_not] = Ok [[(1, 2); (0, 2)]%nat; []; []; [(1, 2); (0, 2)]%nat].
Proof. split; [exact demo_sat|]. split; [split; [reflexivity|repeat constructor]|vm_compute; reflexivity]. Qed.
(** a second position gets the answers of the first: (1,2) is said to be safe where every placement has a mine *)
Theorem C26_refuted : exists g1 g2 p, satisfiable 2 3 (forget g1) /\ satisfiable 2 3 (forget g2) /\ rect 2 3 g1 /\ rect 2 3 g2 /\
  determined 2 3 (forget g2) p true /\
  exists l, gsession (gboard_new 2) [Gset g1; Gask Gbasic_not; Gset g2; Gask Gbasic_not] = Ok [l; l] /\ In p l.
Proof.
  exists demo_pos, [[0; 1; 1]; [0; 1; 10]], (1, 2)%nat. split; [exact demo_sat|].
  split; [apply (@satisfiable_ok 2 3 _ (fun p => posb p (1, 2)%nat)); [split; [reflexivity|repeat constructor]|lia|reflexivity]|].
  split; [split; [reflexivity|repeat constructor]|]. split; [split; [reflexivity|repeat constructor]|]. split.
  - change (forget [[0; 1; 1]; [0; 1; 10]]) with [[0; 1; 1]; [0; 1; 10]]. intros m Hm.
    assert (K : forall q, inb 2 3 q -> cell [[0; 1; 1]; [0; 1; 10]] q <> 10 -> cell [[0; 1; 1]; [0; 1; 10]] q <> 11 -> m q = false) by (intros q Hq; apply (Hm q Hq)).
    destruct (Hm (0, 2)%nat) as (_ & _ & H); [split; cbn; lia|].
    assert (Hn : number [[0; 1; 1]; [0; 1; 10]] (0, 2)%nat) by (cbv; split; congruence). specialize (H Hn).
    change (cell [[0; 1; 1]; [0; 1; 10]] (0, 2)%nat) with 1 in H. unfold adj_count in H.
    change (positions 2 3) with [(0, 0); (0, 1); (0, 2); (1, 0); (1, 1); (1, 2)]%nat in H. rewrite !count_cons, count_nil in H.
    cbn [adjb posb negb andb nearb fst snd Nat.eqb Nat.leb Nat.add] in H.
    rewrite (K (0, 1)%nat), (K (1, 1)%nat) in H by (try (split; cbn; lia); vm_compute; congruence).
    destruct (m (1, 2)%nat); cbn in H; auto; lia.
  - eexists. split; [vm_compute; reflexivity|]. cbn. auto.
Qed.
Print Assumptions C26_refuted.
