(** * SolvableProofs: [unsolvable_structure] and [is_solvable]. *)
From Verif Require Import Base Spec BaseFacts Metrics Refresh RefreshProofs Matrix Solve SolverSpec
  MatrixProofs LinFacts DirectProofs SolveProofs EnumProofs EnumSolve PosProofs Solvable SolvableSpec.
Open Scope Z_scope.

(** ** logical openings *)
Section L.
Variables (row column : nat) (b : board) (start : pos).
Notation agrees := (agrees row column b).
Notation forced_safe := (forced_safe row column b).
Notation logical := (logical row column b start).

Lemma agrees_incl l l' m : incl l l' -> agrees l' m -> agrees l m.
Proof. intros H A q Hq. auto. Qed.
Lemma forced_incl l l' p : incl l l' -> forced_safe l p -> forced_safe l' p.
Proof. intros H F m A. apply F. eapply agrees_incl; eauto. Qed.
Lemma logical_start_in l : logical l -> In start l.
Proof. induction 1; [now left|]. apply in_or_app. now left. Qed.
Lemma logical_inb l : inb row column start -> logical l -> Forall (inb row column) l.
Proof. intros H. induction 1; [auto|]. apply Forall_app. auto. Qed.
(** The first cell of a logical sequence outside a set that contains the start. *)
Lemma logical_first (P : pos -> bool) l : logical l -> P start = true ->
  (forall p, In p l -> P p = true) \/
  exists l' p, logical l' /\ (forall q, In q l' -> P q = true) /\ P p = false /\ inb row column p /\ forced_safe l' p.
Proof.
  intros H Hs. induction H as [|l p Hl IH Hp Hf].
  - left. intros p [<-|[]]. exact Hs.
  - destruct IH as [IH|IH]; [|right; exact IH]. destruct (P p) eqn:E.
    + left. intros q Hq. apply in_app_or in Hq as [Hq|[<-|[]]]; auto.
    + right. exists l, p. auto.
Qed.
(** In a logical sequence of a legal board from a safe start all cells are safe. *)
Lemma truth_agrees l : legal_board row column b -> Forall (inb row column) l ->
  (forall q, In q l -> is_mine b q = false) -> agrees l (is_mine b).
Proof.
  intros [_ Hl] Hi Hs q Hq. split; [auto|]. rewrite Forall_forall in Hi. destruct (Hl q (Hi q Hq)) as [E|E]; auto.
  specialize (Hs q Hq). unfold is_mine in Hs. rewrite E in Hs. discriminate.
Qed.
Lemma logical_safe l : legal_board row column b -> inb row column start -> is_mine b start = false -> logical l ->
  forall q, In q l -> is_mine b q = false.
Proof.
  intros Hl Hi Hs. induction 1 as [|l p Hlo IH Hp Hf]; intros q Hq.
  - destruct Hq as [<-|[]]; auto.
  - apply in_app_or in Hq as [Hq|[<-|[]]]; auto. apply Hf. apply truth_agrees; auto. eapply logical_inb; eauto.
Qed.
End L.

(** ** A second placement makes a board unsolvable *)
Definition flip (D : list pos) (m : pos -> bool) : pos -> bool := fun p => xorb (mem_pos p D) (m p).
Lemma count_app {A} (f : A -> bool) l l' : count f (l ++ l') = (count f l + count f l')%nat.
Proof. unfold count. now rewrite filter_app, app_length. Qed.
Lemma count_split (f : pos -> bool) D l : NoDup D -> NoDup l -> incl D l ->
  count f l = (count (fun p => f p && negb (mem_pos p D)) l + count f D)%nat.
Proof.
  intros ND NL Hi. revert l NL Hi. induction D as [|d D IH]; intros l NL Hi.
  - cbn [count filter length]. rewrite Nat.add_0_r. unfold count. f_equal. apply filter_ext. intros a. cbn. now rewrite andb_true_r.
  - inversion ND as [|? ? Hd ND']; subst. rewrite (IH ND' l NL) by (intros x Hx; apply Hi; now right).
    assert (E : count (fun p => f p && negb (mem_pos p D)) l =
                (count (fun p => f p && negb (mem_pos p (d :: D))) l + if f d then 1 else 0)%nat).
    { assert (Hdl : In d l) by (apply Hi; now left). apply in_split in Hdl as (l1 & l2 & ->).
      apply NoDup_remove in NL as [NL Hd']. rewrite !count_app, !count_cons.
      assert (Hdd : mem_pos d D = false) by (destruct (mem_pos_spec d D); tauto).
      assert (Hdd' : mem_pos d (d :: D) = true) by (destruct (mem_pos_spec d (d :: D)) as [|H]; auto; exfalso; apply H; now left).
      rewrite Hdd, Hdd'. cbn [negb]. rewrite andb_true_r, andb_false_r.
      assert (Ho : forall l', incl l' (l1 ++ l2) -> count (fun p => f p && negb (mem_pos p D)) l' = count (fun p => f p && negb (mem_pos p (d :: D))) l').
      { intros l' Hl'. unfold count. f_equal. apply filter_ext_in. intros a Ha. f_equal. f_equal.
        destruct (mem_pos_spec a D) as [Ha1|Ha1], (mem_pos_spec a (d :: D)) as [Ha2|Ha2]; auto; exfalso.
        - apply Ha2. now right.
        - destruct Ha2 as [<-|Ha2]; auto. }
      rewrite (Ho l1), (Ho l2) by (intros x Hx; apply in_or_app; auto). destruct (f d); lia. }
    rewrite E, count_cons. destruct (f d); lia.
Qed.
Lemma positions_nodup row column : NoDup (positions row column).
Proof. apply NoDup_list_prod; apply seq_NoDup. Qed.
Lemma adj_count_flip row column D m q : NoDup D -> Forall (inb row column) D ->
  count (fun d => adjb q d && m d) D = count (fun d => adjb q d && negb (m d)) D ->
  adj_count row column (flip D m) q = adj_count row column m q.
Proof.
  intros ND Hi H. unfold adj_count.
  assert (HI : incl D (positions row column)). { intros d Hd. apply in_positions. rewrite Forall_forall in Hi. auto. }
  rewrite (@count_split _ D _ ND (positions_nodup row column) HI).
  rewrite (@count_split (fun p => adjb q p && m p) D _ ND (positions_nodup row column) HI). f_equal.
  - unfold count. f_equal. apply filter_ext. intros a. unfold flip. destruct (mem_pos a D); cbn [negb]; rewrite ?andb_false_r, ?andb_true_r, ?xorb_false_l; auto.
  - rewrite H. unfold count. f_equal. apply filter_ext_in. intros a Ha. unfold flip. rewrite mem_true by auto. reflexivity.
Qed.

Section Twin.
Variables (row column : nat) (b : board).
Hypothesis Hleg : legal_board row column b.
(** [D] can be flipped without any safe cell outside [D] noticing. *)
Definition twin (D : list pos) : Prop :=
  NoDup D /\ Forall (inb row column) D /\ (exists d, In d D /\ is_mine b d = false) /\
  forall q, inb row column q -> is_mine b q = false -> ~ In q D ->
    count (fun d => adjb q d && is_mine b d) D = count (fun d => adjb q d && negb (is_mine b d)) D.
Lemma twin_unsolvable D start : twin D -> inb row column start -> is_mine b start = false -> ~ In start D ->
  ~ no_guess row column b start.
Proof.
  intros (ND & Hi & (d & Hd & Hds) & Hb) Hs Hm HD (l & Hl & Hall).
  assert (Hdl : In d l) by (apply Hall; auto; rewrite Forall_forall in Hi; auto).
  destruct (@logical_first row column b start (fun p => negb (mem_pos p D)) l Hl) as [H|(l' & p & Hl' & H1 & H2 & Hp & Hf)].
  - rewrite mem_false by auto. reflexivity.
  - specialize (H d Hdl). rewrite mem_true in H by auto. discriminate.
  - assert (HpD : In p D). { destruct (mem_pos_spec p D); auto. discriminate. }
    assert (Hin := logical_inb Hs Hl'). rewrite Forall_forall in Hin.
    assert (Hsafe := logical_safe Hleg Hs Hm Hl').
    assert (Hag : agrees row column b l' (is_mine b)) by (apply truth_agrees; auto; now rewrite Forall_forall).
    assert (Hps := Hf _ Hag).
    specialize (Hf (flip D (is_mine b))). unfold flip in Hf at 2. rewrite mem_true, Hps in Hf by auto. cbn in Hf.
    enough (true = false) by discriminate. apply Hf. intros q Hq.
    assert (HqD : ~ In q D). { intros HqD. specialize (H1 q Hq). rewrite mem_true in H1 by auto. discriminate. }
    split.
    + unfold flip. rewrite mem_false by auto. rewrite Hsafe by auto. reflexivity.
    + rewrite adj_count_flip; auto. apply Hag; auto.
Qed.
End Twin.
