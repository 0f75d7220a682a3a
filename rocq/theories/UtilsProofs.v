From Verif Require Import Base Spec BaseFacts LayMine Metrics Matrix Solve SolverSpec TableProofs Utils.
Open Scope Z_scope.

(** ** legalize_board *)
Definition unknownb (b : board) (p : pos) : bool := (cell b p =? 10) || (cell b p =? 11).
(** a legal visible value: 0-8, 10 covered, 11 flag, 12 safe mark *)
Definition legal_value (v : Z) : Prop := 0 <= v <= 8 \/ v = 10 \/ v = 11 \/ v = 12.
Definition legal_valueb (v : Z) : bool := (0 <=? v) && (v <=? 8) || (v =? 10) || (v =? 11) || (v =? 12).
Lemma legal_valueb_iff v : legal_valueb v = true <-> legal_value v.
Proof. unfold legal_valueb, legal_value. lia. Qed.
(** legal: legal values, and no number exceeds the unknown cells around it *)
Definition legal_cell (row column : nat) (b : board) (p : pos) : Prop :=
  legal_value (cell b p) /\ (1 <= cell b p <= 8 -> cell b p <= Z.of_nat (adj_count row column (unknownb b) p)).
Definition legal_position (row column : nat) (b : board) : Prop :=
  rect row column b /\ forall p, inb row column p -> legal_cell row column b p.

Lemma zone_count_foldM row column b (f : Z -> bool) l : rect row column b -> (forall p, In p l -> inb row column p) -> forall n0,
  foldM (fun n '(i, j) => let* w := get b i j in Ok (if f w then n + 1 else n)) l n0 = Ok (n0 + Z.of_nat (count (fun p => f (cell b p)) l)).
Proof.
  intros Hr. induction l as [|[i j] l IH]; intros Hl n0; cbn [foldM]; [f_equal; cbn; lia|].
  rewrite (get_ok Hr) by (apply Hl; now left). cbn [bind]. rewrite IH by (intros; apply Hl; now right). f_equal. rewrite count_cons. destruct (f (cell b (i, j))); lia.
Qed.
Lemma zone_inb row column i j p : In p (zone row column i j) -> inb row column p.
Proof. destruct p. intros H. apply in_zone in H. tauto. Qed.
Lemma zone_count_adj row column f i j : f (i, j) = false -> count f (zone row column i j) = adj_count row column f (i, j).
Proof.
  intros H. rewrite adj_count_zone. apply count_ext. intros q _. destruct (posb_spec (i, j) q) as [<-|]; cbn; auto.
Qed.

Definition leg (row column : nat) (b : board) (p : pos) : Z :=
  let v := cell b p in
  if (v <=? -1) || (13 <=? v) || (v =? 9) then 10
  else if (1 <=? v) && (v <=? 8) then Z.min v (Z.of_nat (adj_count row column (unknownb b) p)) else v.
Lemma legalize_cell_ok row column b p : rect row column b -> inb row column p ->
  exists b', legalize_cell row column b p = Ok b' /\ rect row column b' /\ (forall q, cell b' q = if posb p q then leg row column b p else cell b q).
Proof.
  intros Hr Hp. destruct p as [x y]. unfold legalize_cell, leg. rewrite (get_ok Hr Hp). cbn [bind].
  destruct ((cell b (x, y) <=? -1) || (13 <=? cell b (x, y)) || (cell b (x, y) =? 9)) eqn:E1.
  - rewrite (set_ok _ Hr Hp). eexists. split; [reflexivity|]. split; [now apply rect_upd|]. intros q. now rewrite (cell_upd _ _ Hr Hp).
  - destruct ((1 <=? cell b (x, y)) && (cell b (x, y) <=? 8)) eqn:E2.
    + rewrite (@zone_count_foldM row column b (fun w => (w =? 10) || (w =? 11))) by (auto; intros; eapply zone_inb; eauto). cbn [bind].
      rewrite (set_ok _ Hr Hp). eexists. split; [reflexivity|]. split; [now apply rect_upd|]. intros q. rewrite (cell_upd _ _ Hr Hp). destruct (posb (x, y) q); auto.
      f_equal. rewrite <- zone_count_adj; [unfold unknownb; lia|]. unfold unknownb. lia.
    + exists b. split; auto. split; auto. intros q. destruct (posb_spec (x, y) q) as [<-|]; auto.
Qed.

Ltac dl := repeat match goal with |- context [if ?c then _ else _] => destruct c eqn:? end.

Record leg_inv (row column : nat) (b : board) (done : list pos) (b' : board) : Prop := {
  li_rect : rect row column b';
  li_todo : forall q, inb row column q -> ~ In q done -> cell b' q = cell b q;
  li_unk : forall q, unknownb b q = true -> cell b' q = cell b q;
  li_same : forall q, inb row column q -> In q done -> legal_value (cell b q) -> ~ (1 <= cell b q <= 8) -> cell b' q = cell b q;
  li_bad : forall q, inb row column q -> In q done -> ~ legal_value (cell b q) -> cell b' q = 10;
  li_num : forall q, inb row column q -> In q done -> 1 <= cell b q <= 8 ->
     0 <= cell b' q <= cell b q /\ Z.min (cell b q) (Z.of_nat (adj_count row column (unknownb b) q)) <= cell b' q <= Z.of_nat (adj_count row column (unknownb b') q) }.

Lemma adj_count_mono row column (f g : pos -> bool) p : (forall q, inb row column q -> f q = true -> g q = true) -> (adj_count row column f p <= adj_count row column g p)%nat.
Proof.
  intros H. unfold adj_count. apply count_mono. intros q Hq E. apply in_positions in Hq. apply andb_true_iff in E as [E1 E2]. rewrite E1. cbn. auto.
Qed.

Lemma legalize_ok row column b : rect row column b -> (0 < row)%nat ->
  exists b', legalize_board b = Ok b' /\ leg_inv row column b (positions row column) b'.
Proof.
  intros Hr H0. unfold legalize_board. rewrite (ncolsR_ok Hr H0). cbn [bind]. unfold nrows. rewrite (proj1 Hr). change (grid row column) with (positions row column).
  apply foldM_inv.
  - constructor; auto; intros q Hq [].
  - intros done p rest b' El I. assert (Hp : inb row column p) by (apply in_positions; rewrite El; apply in_or_app; right; now left).
    assert (Hnd : ~ In p done). { intros Hd. pose proof (NoDup_positions row column) as Nd. rewrite El in Nd. apply NoDup_remove_2 in Nd. apply Nd, in_app_iff. auto. }
    destruct (legalize_cell_ok (li_rect I) Hp) as (b2 & E & R2 & C2). exists b2. split; auto.
    pose proof (li_todo I Hp Hnd) as Ep. unfold leg in C2. rewrite Ep in C2.
    assert (Hmono : forall q, inb row column q -> unknownb b' q = true -> unknownb b2 q = true).
    { intros q Hq. unfold unknownb. rewrite C2. destruct (posb_spec p q) as [<-|]; auto. rewrite Ep. destruct ((cell b p <=? -1) || (13 <=? cell b p) || (cell b p =? 9)) eqn:E1; [lia|]. destruct ((1 <=? cell b p) && (cell b p <=? 8)) eqn:E2; lia. }
    assert (Hmono0 : forall q, inb row column q -> unknownb b q = true -> unknownb b' q = true).
    { intros q Hq Hu. unfold unknownb in *. now rewrite (li_unk I). }
    constructor; auto.
    + intros q Hq Hn. rewrite in_app_iff in Hn. rewrite C2. destruct (posb_spec p q) as [<-|]; [exfalso; apply Hn; right; now left|]. apply (li_todo I); auto.
    + intros q Hu. rewrite C2. destruct (posb_spec p q) as [<-|]; [|apply (li_unk I Hu)]. unfold unknownb in Hu. dl; lia.
    + intros q Hq Hd Hl Hv. rewrite C2. destruct (posb_spec p q) as [<-|Hne]; [unfold legal_value in Hl; dl; lia|]. apply (li_same I); auto. apply in_app_iff in Hd as [|[|[]]]; auto; congruence.
    + intros q Hq Hd Hl. rewrite C2. destruct (posb_spec p q) as [<-|Hne]; [unfold legal_value in Hl; dl; lia|]. apply (li_bad I); auto. apply in_app_iff in Hd as [|[|[]]]; auto; congruence.
    + intros q Hq Hd Hv. pose proof (adj_count_mono q Hmono0) as M0. pose proof (adj_count_mono q Hmono) as M1.
      rewrite C2. destruct (posb_spec p q) as [<-|Hne]; [dl; lia|]. destruct (@li_num _ _ _ _ _ I q) as [N1 N2]; auto; [apply in_app_iff in Hd as [|[|[]]]; auto; congruence|]. lia.
Qed.

Lemma legalize_board_legal row column b : rect row column b -> (0 < row)%nat ->
  exists b', legalize_board b = Ok b' /\ legal_position row column b' /\
    (forall p, inb row column p -> ~ legal_value (cell b p) -> cell b' p = 10) /\
    (forall p, inb row column p -> cell b p = 0 \/ 10 <= cell b p <= 12 -> cell b' p = cell b p) /\
    (forall p, inb row column p -> 1 <= cell b p <= 8 ->
       Z.min (cell b p) (Z.of_nat (adj_count row column (unknownb b) p)) <= cell b' p <= Z.min (cell b p) (Z.of_nat (adj_count row column (unknownb b') p))).
Proof.
  intros Hr H0. destruct (legalize_ok Hr H0) as (b' & E & I). exists b'. split; auto.
  assert (Hall : forall q, inb row column q -> In q (positions row column)) by (intros; now apply in_positions).
  split; [|split; [|split]].
  - split; [apply I|]. intros p Hp. unfold legal_cell. destruct (legal_valueb (cell b p)) eqn:El.
    + apply legal_valueb_iff in El. destruct (Z_le_dec 1 (cell b p)), (Z_le_dec (cell b p) 8).
      * destruct (@li_num _ _ _ _ _ I p) as [N1 N2]; auto. split; [left; lia|lia].
      * rewrite (@li_same _ _ _ _ _ I p) by (auto; lia). split; auto. lia.
      * rewrite (@li_same _ _ _ _ _ I p) by (auto; lia). split; auto. lia.
      * lia.
    + assert (Hn : ~ legal_value (cell b p)) by (rewrite <- legal_valueb_iff; congruence). rewrite (@li_bad _ _ _ _ _ I p) by auto. split; [right; auto|lia].
  - intros p Hp Hn. apply (li_bad I); auto.
  - intros p Hp Hv. apply (li_same I); auto; unfold legal_value; lia.
  - intros p Hp Hv. destruct (@li_num _ _ _ _ _ I p) as [N1 N2]; auto. lia.
Qed.
Lemma board_ext row column (b b' : board) : rect row column b -> rect row column b' -> (forall p, inb row column p -> cell b p = cell b' p) -> b = b'.
Proof.
  intros [H1 H2] [H3 H4] H. apply (nth_ext _ _ [] []); [lia|]. intros i Hi. rewrite Forall_forall in H2, H4.
  assert (L1 : length (nth i b []) = column) by (apply H2, nth_In; lia). assert (L2 : length (nth i b' []) = column) by (apply H4, nth_In; lia).
  apply (nth_ext _ _ 0 0); [lia|]. intros j Hj. apply (H (i, j)). split; cbn; lia.
Qed.
Lemma legalize_fixed row column b : legal_position row column b -> (0 < row)%nat -> legalize_board b = Ok b.
Proof.
  intros [Hr Hl] H0. destruct (legalize_board_legal Hr H0) as (b' & E & [Hr' _] & _ & H2 & H3). rewrite E. f_equal. apply (@board_ext row column); auto.
  intros p Hp. destruct (Hl p Hp) as [Lv Ln]. destruct (Z_le_dec 1 (cell b p)), (Z_le_dec (cell b p) 8).
  - specialize (H3 p Hp ltac:(lia)). lia.
  - apply H2; auto. unfold legal_value in Lv. lia.
  - apply H2; auto. unfold legal_value in Lv. lia.
  - lia.
Qed.

(** ** C(n,k) *)
Lemma binom_small n k : (n < k)%nat -> binom n k = 0%nat.
Proof. revert k; induction n as [|n IH]; intros [|k] H; cbn; try lia. rewrite !IH by lia. reflexivity. Qed.
Lemma binom_0 n : binom n 0 = 1%nat. Proof. now destruct n. Qed.
Lemma binom_n n : binom n n = 1%nat.
Proof. induction n as [|n IH]; auto. cbn [binom]. rewrite IH, binom_small by lia. lia. Qed.
Lemma binom_S n k : binom (S n) (S k) = (binom n k + binom n (S k))%nat. Proof. reflexivity. Qed.
Lemma binom_absorb n : forall k, (binom n (S k) * (S k) = binom n k * (n - k))%nat.
Proof.
  induction n as [|n IH]; intros k; [cbn; lia|]. rewrite binom_S. destruct k as [|k].
  - rewrite !binom_0. pose proof (IH 0%nat) as H. rewrite binom_0 in H. lia.
  - rewrite (binom_S n k). pose proof (IH (S k)) as H1. pose proof (IH k) as H2.
    destruct (Nat.le_gt_cases (S k) n) as [Hk|Hk].
    + replace (S n - S k)%nat with (n - k)%nat by lia. replace (n - S k)%nat with (n - k - 1)%nat in H1 by lia. nia.
    + rewrite (@binom_small n (S k)), (@binom_small n (S (S k))) by lia. rewrite (@binom_small n (S k)) in H2 by lia. replace (S n - S k)%nat with (n - k)%nat by lia. nia.
Qed.
Lemma binom_sym n : forall k, (k <= n)%nat -> binom n (n - k) = binom n k.
Proof.
  induction n as [|n IH]; intros k Hk; [assert (k = 0)%nat as -> by lia; reflexivity|].
  destruct k as [|k]; [rewrite Nat.sub_0_r, binom_n; reflexivity|]. destruct (Nat.eq_dec k n) as [->|Hne]; [rewrite Nat.sub_diag, binom_n; reflexivity|].
  replace (S n - S k)%nat with (S (n - S k))%nat by lia. rewrite !binom_S. rewrite IH by lia.
  replace (S (n - S k)) with (n - k)%nat by lia. rewrite IH by lia. lia.
Qed.
Lemma C_loop n k : (k <= n)%nat -> foldM (fun c i => let* m := usub n i in Ok (c * m / (i + 1))%nat) (seq 0 k) 1%nat = Ok (binom n k).
Proof.
  intros Hk. destruct (@foldM_inv _ _ (fun c i => let* m := usub n i in Ok (c * m / (i + 1))%nat) (fun done c => c = binom n (length done)) (seq 0 k) 1%nat) as (c & E & ->).
  - now rewrite binom_0.
  - intros done i rest c El ->. assert (i = length done /\ (i < k)%nat) as [-> Hi].
    { pose proof (f_equal (fun l => nth (length done) l 0%nat) El) as H. cbn beta in H. rewrite app_nth2, Nat.sub_diag in H by lia. cbn in H.
      assert (length done < k)%nat. { pose proof (f_equal (@length nat) El) as L. rewrite seq_length, app_length in L. cbn in L. lia. } rewrite seq_nth in H by lia. lia. }
    unfold usub. destruct (Nat.leb_spec (length done) n); [|lia]. cbn [bind]. eexists. split; [reflexivity|]. rewrite app_length. cbn [length].
    rewrite <- binom_absorb, Nat.add_1_r. now rewrite Nat.div_mul by lia.
  - rewrite E. now rewrite seq_length.
Qed.
Theorem C_exact_ok n k : (k <= n)%nat -> C_exact 1 n k = Ok (binom n k).
Proof.
  intros Hk. cbn [C_exact]. destruct (Nat.ltb_spec n (k + k)); [|now apply C_loop].
  assert (U : usub n k = Ok (n - k)%nat) by (unfold usub; destruct (Nat.leb_spec k n); [auto|lia]). rewrite U. cbn [bind]. destruct (Nat.ltb_spec n (n - k + (n - k))); [lia|]. rewrite C_loop by lia. now rewrite binom_sym.
Qed.
Theorem C_exact_panic n k f : (n < k)%nat -> C_exact (S f) n k = Panic.
Proof. intros H. cbn [C_exact]. destruct (Nat.ltb_spec n (k + k)); [|lia]. unfold usub. destruct (Nat.leb_spec k n); [lia|reflexivity]. Qed.
(** Pascal's triangle counts subsets *)
Lemma binom_counts {A} (l : list A) k : count (fun s => (length s =? k)%nat) (subs l) = binom (length l) k.
Proof.
  revert k; induction l as [|a l IH]; intros k; [destruct k; reflexivity|]. cbn [subs length]. rewrite count_app. destruct k as [|k].
  - rewrite IH, !binom_0. rewrite count_zero; auto. intros s Hs. apply in_map_iff in Hs as (t & <- & _). reflexivity.
  - rewrite IH, binom_S. rewrite Nat.add_comm. f_equal. rewrite <- IH. clear. induction (subs l) as [|s ss IHs]; auto. cbn [map]. rewrite !count_cons, IHs. reflexivity.
Qed.

(** ** is_good_chording *)
(** number of covered cells a double click at [p] would open; -1 when it would not take effect *)
Definition chord_gain (row column : nat) (g : board) (p : pos) : Z :=
  if (1 <=? cell g p) && (cell g p <=? 8) && (cell g p =? Z.of_nat (adj_count row column (flaggedb g) p))
  then Z.of_nat (adj_count row column (coveredb g) p) else -1.
Lemma surround_ok row column g p : rect row column g -> inb row column p -> surround_cell_num g p = Ok (chord_gain row column g p).
Proof.
  intros Hr Hp. assert (H0 : (0 < row)%nat) by (destruct Hp; lia). destruct p as [i j]. unfold surround_cell_num, chord_gain. rewrite (ncolsR_ok Hr H0). cbn [bind fst snd]. rewrite (get_ok Hr Hp). cbn [bind].
  unfold nrows. rewrite (proj1 Hr).
  destruct (Z.ltb_spec 8 (cell g (i, j))), (Z.ltb_spec (cell g (i, j)) 1), (Z.leb_spec 1 (cell g (i, j))), (Z.leb_spec (cell g (i, j)) 8); try lia; cbn [orb andb]; auto.
  assert (K : forall l n0 f0, (forall q, In q l -> inb row column q) ->
    foldM (fun '(num, fl) '(m, n) => let* w := get g m n in Ok (if w =? 10 then (num + 1, fl) else if w =? 11 then (num, fl + 1) else (num, fl))) l (n0, f0) =
    Ok (n0 + Z.of_nat (count (coveredb g) l), f0 + Z.of_nat (count (flaggedb g) l))).
  { induction l as [|[m n] l IH]; intros n0 f0 Hl; cbn [foldM]; [f_equal; cbn; f_equal; lia|]. rewrite (get_ok Hr) by (apply Hl; now left). cbn [bind]. rewrite !count_cons. unfold coveredb at 1, flaggedb at 1.
    destruct (Z.eqb_spec (cell g (m, n)) 10), (Z.eqb_spec (cell g (m, n)) 11); try lia; rewrite IH by (intros; apply Hl; now right); do 2 f_equal; lia. }
  rewrite K by (intros; eapply zone_inb; eauto). cbn [bind]. rewrite !zone_count_adj; auto; unfold coveredb, flaggedb; lia.
Qed.
Lemma surround_out row column g p : rect row column g -> (0 < row)%nat -> (fst p < row)%nat -> snd p = column -> surround_cell_num g p = Panic.
Proof.
  intros Hr H0 H1 H2. unfold surround_cell_num. rewrite (ncolsR_ok Hr H0). cbn [bind]. unfold get. rewrite (rect_row_error Hr H1).
  rewrite (proj2 (nth_error_None _ _)); [reflexivity|]. rewrite (rect_row Hr H1). lia.
Qed.
(** the four orthogonal neighbours *)
Definition ortho (p q : pos) : Prop :=
  (fst p = fst q /\ (snd q + 1 = snd p \/ snd p + 1 = snd q) \/ snd p = snd q /\ (fst q + 1 = fst p \/ fst p + 1 = fst q))%nat.
Theorem good_chording_ok row column g p : rect row column g -> inb row column p -> (snd p + 1 < column)%nat ->
  exists r, is_good_chording g p = Ok r /\
    (r = true <-> 0 < chord_gain row column g p /\ forall q, inb row column q -> ortho p q -> chord_gain row column g q <= chord_gain row column g p).
Proof.
  intros Hr Hp Hc. assert (H0 : (0 < row)%nat) by (destruct Hp; lia). destruct p as [i j]. cbn [fst snd] in *. destruct Hp as [Hi Hj]. cbn in Hi, Hj.
  unfold is_good_chording. rewrite (ncolsR_ok Hr H0). cbn [bind fst snd]. unfold nrows. rewrite (proj1 Hr).
  rewrite (@surround_ok row column) by (auto; split; cbn; lia). cbn [bind]. set (c := chord_gain row column g) in *.
  assert (K : forall (t : bool) q, (t = true -> inb row column q) -> (if t then let* n := surround_cell_num g q in Ok (c (i, j) <? n) else Ok false) = Ok (t && (c (i, j) <? c q))).
  { intros [] q Hq; auto. rewrite (@surround_ok row column) by auto. reflexivity. }
  rewrite !K by (intros H; split; cbn; lia). cbn [bind]. 
  assert (Hq : forall q, inb row column q -> ortho (i, j) q -> q = (i - 1, j)%nat /\ (0 < i)%nat \/ q = (i, j - 1)%nat /\ (0 < j)%nat \/ q = (i + 1, j)%nat /\ (i + 1 < row)%nat \/ q = (i, j + 1)%nat /\ (j < column + 1)%nat).
  { intros [a b] [Ha Hb] Ho. unfold ortho in Ho. cbn in *. assert (forall x y u v : nat, x = u -> y = v -> (x, y) = (u, v)) as P by (intros; congruence). intuition (try lia).
    - right; left; split; [apply P; lia|lia]. - right; right; right; split; [apply P; lia|lia]. - left; split; [apply P; lia|lia]. - right; right; left; split; [apply P; lia|lia]. }
  assert (F1 : forall t q, (t = true -> inb row column q /\ ortho (i, j) q) -> t && (c (i, j) <? c q) = true -> exists q, inb row column q /\ ortho (i, j) q /\ c (i, j) < c q).
  { intros t q H E. apply andb_true_iff in E as [E1 E2]. exists q. destruct (H E1). repeat split; try apply H1; auto. lia. }
  destruct ((0 <? i)%nat && (c (i, j) <? c (i - 1, j)%nat)) eqn:E1.
  { exists false. split; auto. split; [discriminate|]. intros [_ H]. apply F1 in E1 as (q & A & B & C); [specialize (H q A B); lia|]. intros T. unfold ortho, inb; cbn; lia. }
  destruct ((0 <? j)%nat && (c (i, j) <? c (i, j - 1)%nat)) eqn:E2.
  { exists false. split; auto. split; [discriminate|]. intros [_ H]. apply F1 in E2 as (q & A & B & C); [specialize (H q A B); lia|]. intros T. unfold ortho, inb; cbn; lia. }
  destruct ((i + 1 <? row)%nat && (c (i, j) <? c (i + 1, j)%nat)) eqn:E3.
  { exists false. split; auto. split; [discriminate|]. intros [_ H]. apply F1 in E3 as (q & A & B & C); [specialize (H q A B); lia|]. intros T. unfold ortho, inb; cbn; lia. }
  destruct ((j <? column + 1)%nat && (c (i, j) <? c (i, j + 1)%nat)) eqn:E4.
  { exists false. split; auto. split; [discriminate|]. intros [_ H]. apply F1 in E4 as (q & A & B & C); [specialize (H q A B); lia|]. intros T. unfold ortho, inb; cbn; lia. }
  exists (0 <? c (i, j)). split; auto. rewrite Z.ltb_lt. split.
  - intros H. split; auto. intros q A B. destruct (Hq q A B) as [[-> T]|[[-> T]|[[-> T]|[-> T]]]]; lia.
  - tauto.
Qed.
(** on the last column: the answer is false if an orthogonal neighbour gains more, and otherwise there is none *)
Theorem good_chording_last row column g p : rect row column g -> inb row column p -> (snd p + 1 = column)%nat ->
  ((exists q, inb row column q /\ ortho p q /\ chord_gain row column g p < chord_gain row column g q) /\ is_good_chording g p = Ok false) \/
  ((forall q, inb row column q -> ortho p q -> chord_gain row column g q <= chord_gain row column g p) /\ is_good_chording g p = Panic).
Proof.
  intros Hr Hp Hc. assert (H0 : (0 < row)%nat) by (destruct Hp; lia). destruct p as [i j]. cbn [fst snd] in *. destruct Hp as [Hi Hj]. cbn in Hi, Hj.
  unfold is_good_chording. rewrite (ncolsR_ok Hr H0). cbn [bind fst snd]. unfold nrows. rewrite (proj1 Hr).
  rewrite (@surround_ok row column) by (auto; split; cbn; lia). cbn [bind]. set (c := chord_gain row column g) in *.
  assert (K : forall (t : bool) q, (t = true -> inb row column q) -> (if t then let* n := surround_cell_num g q in Ok (c (i, j) <? n) else Ok false) = Ok (t && (c (i, j) <? c q))).
  { intros [] q Hq; auto. rewrite (@surround_ok row column) by auto. reflexivity. }
  rewrite (K (0 <? i)%nat), (K (0 <? j)%nat), (K (i + 1 <? row)%nat) by (intros H; split; cbn; lia). cbn [bind].
  assert (F1 : forall t q, (t = true -> inb row column q /\ ortho (i, j) q) -> t && (c (i, j) <? c q) = true -> exists q, inb row column q /\ ortho (i, j) q /\ c (i, j) < c q).
  { intros t q H E. apply andb_true_iff in E as [E1 E2]. exists q. destruct (H E1). repeat split; try apply H1; auto. lia. }
  destruct ((0 <? i)%nat && (c (i, j) <? c (i - 1, j)%nat)) eqn:E1.
  { left. split; auto. apply F1 in E1; auto. intros T. unfold ortho, inb; cbn; lia. }
  destruct ((0 <? j)%nat && (c (i, j) <? c (i, j - 1)%nat)) eqn:E2.
  { left. split; auto. apply F1 in E2; auto. intros T. unfold ortho, inb; cbn; lia. }
  destruct ((i + 1 <? row)%nat && (c (i, j) <? c (i + 1, j)%nat)) eqn:E3.
  { left. split; auto. apply F1 in E3; auto. intros T. unfold ortho, inb; cbn; lia. }
  right. split.
  - intros [a b] [Ha Hb] Ho. unfold ortho in Ho. cbn [fst snd] in Ha, Hb, Ho. destruct Ho as [[<- [H|H]]|[<- [H|H]]]; [|lia| |].
    + assert (b = j - 1)%nat as -> by lia. lia.
    + assert (a = i - 1)%nat as -> by lia. lia.
    + assert (a = i + 1)%nat as -> by lia. lia.
  - destruct (Nat.ltb_spec j (column + 1)); [|lia]. rewrite (@surround_out row column); auto.
Qed.
