(** * PropsUtils: utility functions (C45-C48). *)
From Verif Require Import Base Spec BaseFacts LayMine Metrics MetricsProofs Refresh MineBoard Matrix Solve SolverSpec TableProofs Utils UtilsProofs.
Open Scope Z_scope.

(** ** C45 *)
(** [legal_position] (UtilsProofs.v): every cell is 0..8, 10, 11 or 12 and no number exceeds its
    covered or flagged neighbours. *)
Theorem C45_legalize_board : forall row column b, rect row column b -> (0 < row)%nat ->
  exists b', legalize_board b = Ok b' /\ rect row column b' /\
    (forall p, inb row column p -> legal_value (cell b' p) /\
       (1 <= cell b' p <= 8 -> cell b' p <= Z.of_nat (adj_count row column (fun q => (cell b' q =? 10) || (cell b' q =? 11)) p))) /\
    (forall p, inb row column p -> ~ legal_value (cell b p) -> cell b' p = 10) /\
    (forall p, inb row column p -> cell b p = 0 \/ cell b p = 10 \/ cell b p = 11 \/ cell b p = 12 -> cell b' p = cell b p) /\
    (forall p, inb row column p -> 1 <= cell b p <= 8 -> 0 <= cell b' p <= cell b p) /\
    legalize_board b' = Ok b'.
Proof.
  intros row column b Hr H0. destruct (legalize_board_legal Hr H0) as (b' & E & L & H1 & H2 & H3). exists b'. split; auto. split; [apply L|].
  split; [intros p Hp; apply (proj2 L p Hp)|]. split; auto. split; [intros p Hp Hv; apply H2; auto; lia|].
  split; [intros p Hp Hv; specialize (H3 p Hp Hv); lia|]. now apply (@legalize_fixed row column).
Qed.
Print Assumptions C45_legalize_board.
(** a legal position is left alone, cell by cell *)
Theorem C45_legal_unchanged : forall row column b, rect row column b -> (0 < row)%nat ->
  (forall p, inb row column p -> legal_value (cell b p) /\
       (1 <= cell b p <= 8 -> cell b p <= Z.of_nat (adj_count row column (fun q => (cell b q =? 10) || (cell b q =? 11)) p))) ->
  legalize_board b = Ok b.
Proof. intros row column b Hr H0 H. apply (@legalize_fixed row column); auto. split; auto. Qed.
Print Assumptions C45_legal_unchanged.
Example C45_case : legalize_board [[3; 10; 9]; [-4; 12; 40]] = Ok [[1; 10; 10]; [10; 12; 10]].
Proof. vm_compute. reflexivity. Qed.

(** ** C46 *)
(** C(n,k) is the number of k-element subsets of an n-element set: [subs l] lists the subsets of [l]. *)
Theorem C46_C : forall (A : Type) (l : list A) k, (k <= length l)%nat ->
  C_exact 1 (length l) k = Ok (count (fun s => (length s =? k)%nat) (subs l)).
Proof. intros A l k H. rewrite binom_counts. now apply C_exact_ok. Qed.
Print Assumptions C46_C.
Theorem C46_C_query : forall (A : Type) (l : list A) k, (length l <= 8)%nat -> (k <= length l)%nat ->
  C_query (length l) k = Ok (count (fun s => (length s =? k)%nat) (subs l)).
Proof. intros A l k H H'. rewrite binom_counts. now apply C_query_ok. Qed.
Print Assumptions C46_C_query.
Theorem C46_C_panics : forall n k, (n < k)%nat -> C_exact 1 n k = Panic.
Proof. intros n k H. now apply C_exact_panic. Qed.
Print Assumptions C46_C_panics.
Example C46_case : C_exact 1 9 7 = Ok 36%nat /\ C_query 8 3 = Ok 56%nat.
Proof. split; reflexivity. Qed.

(** ** C47 *)
Definition legal_boardb (row column : nat) (b : board) : bool :=
  (length b =? row)%nat && forallb (fun r => (length r =? column)%nat) b &&
  forallb (fun p => (cell b p =? -1) || (cell b p =? Z.of_nat (adj_count row column (is_mine b) p))) (positions row column).
Lemma legal_boardb_ok row column b : legal_boardb row column b = true -> legal_board row column b.
Proof.
  unfold legal_boardb. rewrite !andb_true_iff. intros [[H1 H2] H3]. rewrite forallb_forall in H2, H3. split.
  - split; [now apply Nat.eqb_eq|]. apply Forall_forall. intros r Hr. now apply Nat.eqb_eq, H2.
  - intros p Hp. apply in_positions in Hp. specialize (H3 p Hp). lia.
Qed.
(** one mine in the third cell of the first row *)
Definition exp_witness : board :=
  ([0; 1; -1; 1] ++ repeat 0 26) :: ([0; 1; 1; 1] ++ repeat 0 26) :: repeat (repeat 0 30) 14.
Theorem C47_refuted : exists b, legal_board 16 30 b /\ cal_bbbv b = Ok 1%nat /\ cal_bbbv_exp b = Ok 2%nat.
Proof. exists exp_witness. split; [apply legal_boardb_ok; vm_compute; reflexivity|]. split; vm_compute; reflexivity. Qed.
Print Assumptions C47_refuted.

(** ** C48 *)
(** What chording at [p] would open: the number of covered neighbours if the number equals its flags. *)
Theorem C48_good_chording_partial : forall row column g p, rect row column g -> inb row column p -> (snd p + 1 < column)%nat ->
  exists r, is_good_chording g p = Ok r /\
    (r = true <-> 0 < chord_gain row column g p /\
       forall q, inb row column q -> ortho p q -> chord_gain row column g q <= chord_gain row column g p).
Proof. intros. now apply good_chording_ok. Qed.
Print Assumptions C48_good_chording_partial.
Theorem C48_last_column : forall row column g p, rect row column g -> inb row column p -> (snd p + 1 = column)%nat ->
  ((exists q, inb row column q /\ ortho p q /\ chord_gain row column g p < chord_gain row column g q) /\ is_good_chording g p = Ok false) \/
  ((forall q, inb row column q -> ortho p q -> chord_gain row column g q <= chord_gain row column g p) /\ is_good_chording g p = Panic).
Proof. intros. now apply good_chording_last. Qed.
Print Assumptions C48_last_column.
Example C48_case : is_good_chording [[11; 1; 10; 10]] (0, 1)%nat = Ok true /\ is_good_chording [[11; 1; 1; 10]] (0, 1)%nat = Ok false.
Proof. split; reflexivity. Qed.
Theorem C48_refuted : exists g p, rect 2 2 g /\ inb 2 2 p /\ chord_gain 2 2 g p = 1 /\
  (forall q, inb 2 2 q -> chord_gain 2 2 g q <= 1) /\ is_good_chording g p = Panic.
Proof. exists [[10; 1]; [11; 1]], (0, 1)%nat. split; [split; [reflexivity|repeat constructor]|]. split; [split; cbn; lia|]. split; [reflexivity|].
  split; [|reflexivity]. intros [[|[|i]] [|[|j]]] [Hi Hj]; cbn in Hi, Hj; try lia; vm_compute; congruence. Qed.
Print Assumptions C48_refuted.
