(** * ChunkProofs: chunk_matrix splits a system into independent parts without changing its meaning. *)
From Verif Require Import Base Spec BaseFacts Matrix Solve SolverSpec MatrixProofs LinFacts.
Open Scope Z_scope.

(** ** marking passes *)
Definition mark_step (test : nat -> bool) (st : list bool * list nat) (k : nat) : list bool * list nat :=
  let '(marks, buf) := st in
  if test k && negb (nth k marks false) then (upd_nth marks k true, buf ++ [k]) else (marks, buf).

Definition passed (N : nat) (test : nat -> bool) (marks : list bool) (new : list nat) (marks' : list bool) : Prop :=
  length marks' = N /\
  (forall k, (k < N)%nat -> nth k marks' false = nth k marks false || test k) /\
  (forall k, In k new <-> (k < N)%nat /\ nth k marks' false = true /\ nth k marks false = false).

Lemma inner_pass N (test : nat -> bool) F marks buf : length marks = N ->
  (forall marks buf k, length marks = N -> (k < N)%nat -> F (marks, buf) k = Ok (mark_step test (marks, buf) k)) ->
  exists marks' new, foldM F (seq 0 N) (marks, buf) = Ok (marks', buf ++ new) /\ passed N test marks new marks'.
Proof.
  intros Hl HF.
  destruct (@foldM_inv _ _ F (fun done st => exists new, snd st = buf ++ new /\ length (fst st) = N /\
     (forall k, nth k (fst st) false = nth k marks false || (test k && existsb (Nat.eqb k) done)) /\
     (forall k, In k new <-> (k < N)%nat /\ nth k (fst st) false = true /\ nth k marks false = false)) (seq 0 N) (marks, buf))
    as ([marks' buf'] & E & new & H1 & H2 & H3 & H4).
  - exists []. cbn. rewrite app_nil_r. split; auto. split; auto. split; [intros k; now rewrite andb_false_r, orb_false_r|].
    intros k. split; [tauto|]. intros (_ & A & B). congruence.
  - intros done k rest [m1 b1] El (new & A1 & A2 & A3 & A4). cbn [fst snd] in *.
    assert (Hk : (k < N)%nat). { assert (In k (seq 0 N)) by (rewrite El; apply in_app_iff; right; now left). apply in_seq in H. lia. }
    rewrite HF by auto. eexists. split; [reflexivity|]. unfold mark_step.
    destruct (test k && negb (nth k m1 false)) eqn:Et; cbn [fst snd].
    + apply andb_true_iff in Et as [Et1 Et2]. apply negb_true_iff in Et2.
      exists (new ++ [k]). split. { rewrite A1. now rewrite app_assoc. }
      split. { now rewrite length_upd_nth. } split.
      { intros j. rewrite existsb_app. cbn [existsb]. destruct (Nat.eqb_spec j k) as [->|Hne].
        - rewrite nth_upd_nth_eq by lia. rewrite Et1, !orb_true_r. reflexivity.
        - rewrite nth_upd_nth_neq by auto. rewrite A3. now rewrite !orb_false_r. }
      intros j. rewrite in_app_iff, A4. cbn [In]. destruct (Nat.eq_dec j k) as [->|Hne].
      * rewrite nth_upd_nth_eq by lia. split; auto. intros _. split; auto. split; auto. rewrite A3 in Et2.
        apply orb_false_iff in Et2. tauto.
      * rewrite nth_upd_nth_neq by auto. split; [intros [?|[?|[]]]; auto; congruence|auto].
    + exists new. split; auto. split; auto. split; auto.
      intros j. rewrite existsb_app. cbn [existsb]. rewrite orb_false_r. destruct (Nat.eqb_spec j k) as [->|Hne]; [|now rewrite orb_false_r].
      rewrite orb_true_r, andb_true_r. rewrite A3 in Et |- *. destruct (test k), (nth k marks false), (existsb (Nat.eqb k) done); cbn in *; auto.
  - exists marks', new. cbn [fst snd] in *. rewrite E, H1. split; auto. split; auto. split; auto.
    intros k Hk. rewrite H3. assert (E1 : existsb (Nat.eqb k) (seq 0 N) = true).
    { apply existsb_exists. exists k. split; [apply in_seq; lia|apply Nat.eqb_refl]. }
    now rewrite E1, andb_true_r.
Qed.

Lemma outer_pass {A} N (tests : A -> nat -> bool) G l : forall marks buf, length marks = N ->
  (forall i marks buf, In i l -> length marks = N -> exists marks' new, G (marks, buf) i = Ok (marks', buf ++ new) /\ passed N (tests i) marks new marks') ->
  exists marks' new, foldM G l (marks, buf) = Ok (marks', buf ++ new) /\ passed N (fun k => existsb (fun i => tests i k) l) marks new marks'.
Proof.
  induction l as [|i l IH]; intros marks buf Hl HG; cbn [foldM].
  - exists marks, []. rewrite app_nil_r. split; auto. split; auto. split; [intros; now rewrite orb_false_r|].
    intros k. split; [intros []|]. intros (_ & A1 & B). congruence.
  - destruct (HG i marks buf (or_introl eq_refl) Hl) as (m1 & n1 & E1 & P1 & P2 & P3). rewrite E1. cbn [bind].
    destruct (IH m1 (buf ++ n1) P1) as (m2 & n2 & E2 & Q1 & Q2 & Q3); [intros; apply HG; auto; now right|].
    exists m2, (n1 ++ n2). rewrite E2, app_assoc. split; auto. split; auto. split.
    + intros k Hk. rewrite Q2, P2 by auto. cbn [existsb]. now rewrite orb_assoc.
    + intros k. rewrite in_app_iff, P3, Q3. split.
      * intros [(A1 & B & C)|(A1 & B & C)]; split; auto; split; auto.
        -- rewrite Q2, B by auto. reflexivity.
        -- rewrite P2 in C by auto. apply orb_false_iff in C. tauto.
      * intros (A1 & B & C). destruct (nth k m1 false) eqn:E; [left|right]; auto.
Qed.

Section Reach.
Variables (es : list equation) (n : nat).
Hypothesis Hw : Forall (fun e => length (fst e) = n) es.
Let m := length es.
Definition entry (r c : nat) : Z := nth c (fst (nth r es ([], 0))) 0.

Lemma len_row r : (r < m)%nat -> length (fst (nth r es ([], 0))) = n.
Proof. intros Hr. rewrite Forall_forall in Hw. apply Hw, nth_In. exact Hr. Qed.

Definition trues (l : list bool) : nat := count (fun b => b) l.
Definition set_of (l : list bool) (k : nat) : Prop := nth k l false = true.

Lemma row_pass colbuf rows : length rows = m -> Forall (fun c => (c < n)%nat) colbuf ->
  exists rows' new,
   foldM (fun '(rows, rb) i =>
                   foldM (fun '(rows, rb) idr =>
                            let* e := vget es idr in
                            let* c := vget (fst e) i in
                            let* seen := vget rows idr in
                            if (1 <=? c) && negb seen then
                              let* rows := vset rows idr true in Ok (rows, rb ++ [idr])
                            else Ok (rows, rb))
                         (seq 0 (length es)) (rows, rb))
                   colbuf (rows, []) = Ok (rows', new) /\
   passed m (fun r => existsb (fun i => 1 <=? entry r i) colbuf) rows new rows'.
Proof.
  intros Hl Hc. apply (@outer_pass nat m (fun i r => 1 <=? entry r i) _ colbuf rows []); auto.
  intros i marks buf Hi Hml. rewrite Forall_forall in Hc. specialize (Hc i Hi). apply inner_pass; auto.
  intros mk bf k Hmk Hk. rewrite (@vget_ok _ es k ([], 0)) by auto. cbn [bind].
  rewrite (@vget_ok _ _ i 0) by (rewrite len_row; auto). cbn [bind]. rewrite (@vget_ok _ mk k false) by lia. cbn [bind].
  unfold mark_step, entry. match goal with |- (if ?b then _ else _) = _ => destruct b end; auto.
  rewrite vset_ok by lia. reflexivity.
Qed.
Lemma col_pass rowbuf cols : length cols = n -> Forall (fun r => (r < m)%nat) rowbuf ->
  exists cols' new,
   foldM (fun '(cols, cb) i =>
                     let* e := vget es i in
                     foldM (fun '(cols, cb) idc =>
                              let* c := vget (fst e) idc in
                              let* seen := vget cols idc in
                              if (1 <=? c) && negb seen then
                                let* cols := vset cols idc true in Ok (cols, cb ++ [idc])
                              else Ok (cols, cb))
                           (seq 0 (length (fst e))) (cols, cb))
                     rowbuf (cols, []) = Ok (cols', new) /\
   passed n (fun c => existsb (fun r => 1 <=? entry r c) rowbuf) cols new cols'.
Proof.
  intros Hl Hc. apply (@outer_pass nat n (fun r c => 1 <=? entry r c) _ rowbuf cols []); auto.
  intros i marks buf Hi Hml. rewrite Forall_forall in Hc. specialize (Hc i Hi).
  rewrite (@vget_ok _ es i ([], 0)) by auto. cbn [bind]. rewrite len_row by auto. apply inner_pass; auto.
  intros mk bf k Hmk Hk. 
  rewrite (@vget_ok _ _ k 0) by (rewrite len_row; auto). cbn [bind]. rewrite (@vget_ok _ mk k false) by lia. cbn [bind].
  unfold mark_step, entry. match goal with |- (if ?b then _ else _) = _ => destruct b end; auto.
  rewrite vset_ok by lia. reflexivity.
Qed.

Lemma trues_mono l l' : length l = length l' -> (forall k, (k < length l)%nat -> nth k l false = true -> nth k l' false = true) ->
  (trues l <= trues l')%nat /\ ((exists k, (k < length l)%nat /\ nth k l false = false /\ nth k l' false = true) -> (trues l < trues l')%nat).
Proof.
  unfold trues. revert l'. induction l as [|b l IH]; intros [|b' l'] Hl H; try discriminate.
  - split; auto. intros (k & Hk & _). cbn in Hk. lia.
  - rewrite !count_cons. destruct (IH l') as [I1 I2]; [cbn in Hl; lia|intros k Hk; apply (H (S k)); cbn; lia|].
    pose proof (H 0%nat ltac:(cbn; lia)) as H0. cbn in H0. split.
    + destruct b; [rewrite H0 by auto|]; [lia|destruct b'; lia].
    + intros ([|k] & Hk & A & B); cbn in A, B, Hk.
      * subst. lia.
      * assert (count (fun b => b) l < count (fun b => b) l')%nat by (apply I2; exists k; split; [lia|auto]). destruct b; [rewrite H0 by auto|]; [lia|destruct b'; lia].
Qed.
Lemma trues_le l : (trues l <= length l)%nat. Proof. apply count_le. Qed.

Lemma chunk_reach_ok fuel : forall rows cols colbuf,
  length rows = m -> length cols = n -> Forall (fun c => (c < n)%nat /\ set_of cols c) colbuf ->
  (forall r c, (r < m)%nat -> (c < n)%nat -> set_of rows r -> 1 <= entry r c -> set_of cols c) ->
  (forall r c, (r < m)%nat -> (c < n)%nat -> set_of cols c -> ~ In c colbuf -> 1 <= entry r c -> set_of rows r) ->
  (n - trues cols < fuel)%nat ->
  exists rows' cols', chunk_reach fuel es rows cols colbuf = Ok (rows', cols') /\
    length rows' = m /\ length cols' = n /\ (forall c, set_of cols c -> set_of cols' c) /\
    (forall r c, (r < m)%nat -> (c < n)%nat -> set_of rows' r -> 1 <= entry r c -> set_of cols' c) /\
    (forall r c, (r < m)%nat -> (c < n)%nat -> set_of cols' c -> 1 <= entry r c -> set_of rows' r).
Proof.
  induction fuel as [|fuel IH]; intros rows cols colbuf Hlr Hlc Hcb I2 I3 Hf; [lia|].
  destruct colbuf as [|c0 colbuf].
  { exists rows, cols. cbn [chunk_reach]. split; auto. split; auto. split; auto. split; auto. split; auto. intros. eapply I3; eauto. }
  cbn [chunk_reach]. set (cb := c0 :: colbuf) in *.
  destruct (@row_pass cb rows) as (rows1 & rowbuf & E & P1 & P2 & P3); auto.
  { eapply Forall_impl; [|exact Hcb]. intros a [H _]; exact H. }
  rewrite E. cbn [bind].
  assert (Irows : forall r c, (r < m)%nat -> (c < n)%nat -> set_of cols c -> 1 <= entry r c -> set_of rows1 r).
  { intros r c Hr Hc Hs He. unfold set_of. rewrite P2 by auto. destruct (in_dec Nat.eq_dec c cb) as [Hi|Hi].
    - apply orb_true_iff. right. apply existsb_exists. exists c. split; auto. lia.
    - now rewrite (I3 r c). }
  destruct rowbuf as [|r0 rowbuf].
  { exists rows1, cols. split; auto. split; auto. split; auto. split; auto. split.
    - intros r c Hr Hc Hs He. apply (I2 r c); auto. unfold set_of in *. destruct (nth r rows false) eqn:En; auto. exfalso.
      apply (in_nil (a := r)), P3. auto.
    - eauto. }
  set (rb := r0 :: rowbuf) in *.
  destruct (@col_pass rb cols) as (cols1 & cb1 & E1 & Q1 & Q2 & Q3); auto.
  { apply Forall_forall. intros r Hr. apply P3 in Hr. tauto. }
  rewrite E1. cbn [bind].
  assert (Hmono : forall c, (c < n)%nat -> set_of cols c -> set_of cols1 c). { intros c Hc H. unfold set_of in *. rewrite Q2, H; auto. }
  assert (Hout : forall l k, (length l <= k)%nat -> ~ set_of l k). { intros l k Hk. unfold set_of. rewrite nth_overflow by auto. discriminate. }
  assert (Hmono' : forall c, set_of cols c -> set_of cols1 c).
  { intros c H. destruct (Nat.lt_ge_cases c n); auto. exfalso. apply (Hout cols c); auto. lia. }
  assert (J2 : forall r c, (r < m)%nat -> (c < n)%nat -> set_of rows1 r -> 1 <= entry r c -> set_of cols1 c).
  { intros r c Hr Hc Hs He. destruct (nth r rows false) eqn:En; [apply Hmono; auto; eapply I2; eauto|].
    unfold set_of. rewrite Q2 by auto. apply orb_true_iff. right. apply existsb_exists. exists r. split; [apply P3; auto|lia]. }
  destruct cb1 as [|c1 cb1].
  { destruct fuel; exists rows1, cols1; cbn [chunk_reach]; split; auto; split; auto; split; auto; split; auto; split; auto;
    intros r c Hr Hc Hs He; apply (Irows r c); auto; unfold set_of in *; destruct (nth c cols false) eqn:En; auto;
    exfalso; apply (in_nil (a := c)), Q3; auto. }
  destruct (IH rows1 cols1 (c1 :: cb1)) as (rows' & cols' & F1 & F2 & F3 & F4 & F5); auto.
  - apply Forall_forall. intros c Hc. apply Q3 in Hc. split; tauto.
  - intros r c Hr Hc Hs Hn He. apply (Irows r c); auto. unfold set_of in *. destruct (nth c cols false) eqn:En; auto. exfalso. apply Hn, Q3. auto.
  - destruct (@trues_mono cols cols1) as [_ T]; [lia|intros k Hk; apply Hmono'|].
    assert (In c1 (c1 :: cb1)) as Hc1 by now left. apply Q3 in Hc1 as (A & B & C).
    assert (trues cols < trues cols1)%nat by (apply T; exists c1; split; [lia|auto]). pose proof (trues_le cols1). lia.
  - exists rows', cols'. split; auto. split; auto.
Qed.
End Reach.

(** ** selecting and removing index sets *)
Definition sel {A} (d : A) (l : list A) (js : list nat) : list A := map (fun j => nth j l d) js.
Definition unmarked (l : list bool) : list nat := filter (fun i => negb (nth i l false)) (seq 0 (length l)).

Lemma In_marked l k : In k (marked l) <-> nth k l false = true.
Proof.
  unfold marked. rewrite filter_In, in_seq. split; [tauto|]. intros H. split; auto. split; [lia|].
  destruct (Nat.lt_ge_cases k (length l)); [lia|]. rewrite nth_overflow in H by auto. discriminate.
Qed.
Lemma In_unmarked l k : In k (unmarked l) <-> (k < length l)%nat /\ nth k l false = false.
Proof. unfold unmarked. rewrite filter_In, in_seq, negb_true_iff. intuition lia. Qed.
Lemma marked_perm l : Permutation (seq 0 (length l)) (marked l ++ unmarked l).
Proof.
  unfold marked, unmarked. generalize (seq 0 (length l)). intros s. induction s as [|a s IH]; cbn; auto.
  destruct (nth a l false); cbn; [constructor; auto|]. apply Permutation_cons_app, IH.
Qed.
Lemma marked_snoc l b : marked (l ++ [b]) = marked l ++ (if b then [length l] else []).
Proof.
  unfold marked. rewrite app_length. cbn [length]. rewrite Nat.add_1_r, seq_S, filter_app. cbn [filter Nat.add].
  rewrite app_nth2, Nat.sub_diag by lia. cbn [nth]. f_equal. apply filter_ext_in. intros k Hk. apply in_seq in Hk. now rewrite app_nth1 by lia.
Qed.
Lemma unmarked_snoc l b : unmarked (l ++ [b]) = unmarked l ++ (if b then [] else [length l]).
Proof.
  unfold unmarked. rewrite app_length. cbn [length]. rewrite Nat.add_1_r, seq_S, filter_app. cbn [filter Nat.add].
  rewrite app_nth2, Nat.sub_diag by lia. cbn [nth]. destruct b; cbn [negb]; f_equal; apply filter_ext_in; intros k Hk; apply in_seq in Hk; now rewrite app_nth1 by lia.
Qed.
Lemma sel_seq {A} (d : A) l : sel d l (seq 0 (length l)) = l.
Proof.
  induction l as [|a l IH] using rev_ind; auto. rewrite app_length. cbn [length]. rewrite Nat.add_1_r, seq_S. unfold sel in *. rewrite map_app. cbn [map Nat.add].
  rewrite app_nth2, Nat.sub_diag by lia. cbn [nth]. f_equal. rewrite <- IH at 2. apply map_ext_in. intros k Hk. apply in_seq in Hk. now rewrite app_nth1 by lia.
Qed.

Lemma remove_nth_app {A} (l : list A) z t : remove_nth (l ++ z :: t) (length l) = l ++ t.
Proof. induction l; cbn; congruence. Qed.

Lemma remove_marked {A} (d : A) mask : forall l t, length l = length mask ->
  foldM (fun l i => vremove l i) (rev (marked mask)) (l ++ t) = Ok (sel d l (unmarked mask) ++ t).
Proof.
  induction mask as [|b mask IH] using rev_ind; intros l t Hl.
  - destruct l; [|discriminate]. reflexivity.
  - rewrite app_length in Hl. cbn [length] in Hl. destruct (@exists_last _ l) as (l0 & z & ->); [intros ->; cbn in Hl; lia|].
    rewrite app_length in Hl. cbn [length] in Hl.
    assert (El : length l0 = length mask) by lia.
    assert (Es : sel d (l0 ++ [z]) (unmarked mask) = sel d l0 (unmarked mask)).
    { unfold sel. apply map_ext_in. intros k Hk. apply In_unmarked in Hk as [Hk _]. now rewrite app_nth1 by lia. }
    rewrite marked_snoc, unmarked_snoc, rev_app_distr. unfold sel in *. rewrite map_app, Es. destruct b; cbn [rev app map foldM].
    + rewrite vremove_ok by (rewrite !app_length; cbn [length]; lia). cbn [bind]. rewrite <- app_assoc. cbn [app].
      rewrite <- El, remove_nth_app. rewrite IH by auto. now rewrite app_nil_r.
    + rewrite <- app_assoc. rewrite IH by auto. rewrite <- El, app_nth2, Nat.sub_diag by lia. cbn [nth]. now rewrite <- app_assoc.
Qed.
Lemma remove_marked0 {A} (d : A) mask l : length l = length mask ->
  foldM (fun l i => vremove l i) (rev (marked mask)) l = Ok (sel d l (unmarked mask)).
Proof. intros H. pose proof (@remove_marked A d mask l [] H) as E. now rewrite !app_nil_r in E. Qed.

Lemma remove_cols js : forall (es : list equation) (x : list pos) es' x',
  Forall2 (fun e e' => foldM (fun l i => vremove l i) js (fst e) = Ok (fst e') /\ snd e' = snd e) es es' ->
  foldM (fun l i => vremove l i) js x = Ok x' ->
  foldM (fun '(es, x) j =>
                   let* es := mapM (fun '(a, b) => let* a := vremove a j in Ok (a, b)) es in
                   let* x := vremove x j in
                   Ok (es, x)) js (es, x) = Ok (es', x').
Proof.
  induction js as [|j js IH]; intros es x es' x' F Hx; cbn [foldM] in *.
  - injection Hx as <-. f_equal. f_equal. induction F as [|[a b] [a' b'] es es' [A B] F I]; auto. cbn in *. injection A as <-. subst. congruence.
  - destruct (vremove x j) as [x1| | |] eqn:Ex; try discriminate. cbn [bind] in *.
    assert (E : exists es1, mapM (fun '(a, b) => let* a := vremove a j in Ok (a, b)) es = Ok es1 /\
       Forall2 (fun e e' => foldM (fun l i => vremove l i) js (fst e) = Ok (fst e') /\ snd e' = snd e) es1 es').
    { clear - F. induction F as [|[a b] [a' b'] es es' [A B] F (es1 & I1 & I2)]; [exists []; auto|]. cbn [mapM fst snd] in *.
      destruct (vremove a j) as [a1| | |]; try discriminate. cbn [bind] in *. rewrite I1. cbn [bind].
      exists ((a1, b) :: es1). split; auto. }
    destruct E as (es1 & E1 & E2). rewrite E1. cbn [bind]. eapply IH; eauto.
Qed.

Lemma coef_sel a x js q : NoDup x -> length a = length x -> Forall (fun j => (j < length x)%nat) js ->
  In q (sel (0, 0)%nat x js) -> coef (sel 0 a js) (sel (0, 0)%nat x js) q = coef a x q.
Proof.
  intros Hnd Hl Hj Hq. induction js as [|j js IH]; cbn in *; [tauto|]. inversion Hj; subst.
  destruct (posb_spec (nth j x (0, 0)%nat) q) as [<-|Hne]; [now rewrite coef_nth by auto|]. destruct Hq; [contradiction|auto].
Qed.

(** ** splitting *)
Record good (x : list pos) (es : list equation) : Prop := {
  gd_nodup : NoDup x;
  gd_wf : Forall (wfe x) es;
  gd_cov : cov x es;
  gd_light : Forall (light x) es;
  gd_nz : Forall (nz x) es
}.

Definition sub (x : list pos) (es : list equation) (js is_ : list nat) : list equation :=
  map (fun e => (sel 0 (fst e) js, snd e)) (sel ([], 0) es is_).

Lemma incl_perm {A} (x' : list A) : NoDup x' -> forall x, (forall q, In q x' -> In q x) -> exists y, Permutation x (x' ++ y).
Proof.
  induction 1 as [|q x' Hn Nx' IH]; intros x Ix'; [exists x; auto|].
  destruct (in_split q x (Ix' q (or_introl eq_refl))) as (l1 & l2 & ->).
  destruct (IH (l1 ++ l2)) as (y & P).
  - intros p Hp. specialize (Ix' p (or_intror Hp)). apply in_app_iff in Ix'. apply in_app_iff. destruct Ix' as [|[->|]]; auto. contradiction.
  - exists y. rewrite <- Permutation_middle. cbn. now constructor.
Qed.

(** a selection of rows and columns closed in both directions keeps the meaning of its rows *)
Lemma sub_good x es js is_ : good x es ->
  NoDup js -> Forall (fun j => (j < length x)%nat) js -> Forall (fun i => (i < length es)%nat) is_ ->
  (forall r c, In r is_ -> (c < length x)%nat -> entry es r c = 1 -> In c js) ->
  (forall r c, (r < length es)%nat -> In c js -> entry es r c = 1 -> In r is_) ->
  good (sel (0, 0)%nat x js) (sub x es js is_) /\
  forall v, Forall (sat_eq (sel (0, 0)%nat x js) v) (sub x es js is_) <-> forall r, In r is_ -> sat_eq x v (nth r es ([], 0)).
Proof.
  intros [Hnd Hw Hc Hl Hn] Ndj Hj Hi C1 C2. set (x' := sel (0, 0)%nat x js).
  assert (Nx' : NoDup x').
  { unfold x', sel. clear - Ndj Hj Hnd. induction Ndj as [|j js Hn Ndj IH]; cbn; constructor; inversion Hj; subst; auto.
    intros Hi. apply in_map_iff in Hi as (k & E & Hk). rewrite Forall_forall in H2. apply (NoDup_nth x (0, 0)%nat) in E; auto. subst. contradiction. }
  assert (Ix' : forall q, In q x' -> In q x).
  { intros q Hq. apply in_map_iff in Hq as (k & <- & Hk). rewrite Forall_forall in Hj. apply nth_In; auto. }
  assert (Hrow : forall r, In r is_ -> let e := nth r es ([], 0) in wfe x e /\ light x e /\ nz x e /\ In e es).
  { intros r Hr e. rewrite Forall_forall in Hi. specialize (Hi r Hr). assert (In e es) by (apply nth_In; auto).
    rewrite Forall_forall in Hw, Hl, Hn. auto. }
  assert (Hent : forall r k, (r < length es)%nat -> (k < length x)%nat -> coef (fst (nth r es ([], 0))) x (nth k x (0, 0)%nat) = entry es r k).
  { intros r k Hr Hk. unfold entry. apply coef_nth; auto. rewrite Forall_forall in Hw. apply (Hw _ (nth_In es ([], 0) Hr)). }
  assert (Hout : forall r q, In r is_ -> In q x -> ~ In q x' -> coef (fst (nth r es ([], 0))) x q = 0).
  { intros r q Hr Hq Hq'. destruct (Hrow r Hr) as ((Hle & Hb) & _). destruct (Hb q) as [E|E]; auto. exfalso. apply Hq'.
    apply (In_nth _ _ (0, 0)%nat) in Hq as (k & Hk & <-). unfold x', sel. apply (in_map (fun j => nth j x (0, 0)%nat)).
    rewrite Forall_forall in Hi. apply (C1 r k); auto. rewrite <- Hent; auto. }
  assert (Hsum : forall r (f : pos -> Z), In r is_ -> sumz (fun q => coef (fst (nth r es ([], 0))) x q * f q) x = sumz (fun q => coef (fst (nth r es ([], 0))) x q * f q) x').
  { intros r f Hr. assert (P : exists y, Permutation x (x' ++ y)).
    { apply incl_perm; auto. }
    destruct P as (y & P). rewrite (sumz_perm _ P), sumz_app. rewrite (@sumz_zero _ _ y); [lia|].
    intros q Hq. pose proof (Permutation_NoDup P Hnd) as N. rewrite Hout; [lia|auto| |].
    - eapply Permutation_in; [symmetry; exact P|]. apply in_app_iff; auto.
    - intros Hq'. clear - N Hq Hq'. induction x' as [|a x' IH]; cbn in *; [tauto|]. inversion N; subst. destruct Hq' as [->|]; auto. apply H1, in_app_iff; auto. }
  assert (Hsub : forall e', In e' (sub x es js is_) <-> exists r, In r is_ /\ e' = (sel 0 (fst (nth r es ([], 0))) js, snd (nth r es ([], 0)))).
  { intros e'. unfold sub, sel. rewrite map_map, in_map_iff. split; intros (r & A & B); exists r; auto. }
  assert (Hco : forall r q, In r is_ -> In q x' -> coef (sel 0 (fst (nth r es ([], 0))) js) x' q = coef (fst (nth r es ([], 0))) x q).
  { intros r q Hr Hq. apply coef_sel; auto. apply (Hrow r Hr). }
  assert (Hwf : forall r, In r is_ -> wfe x' (sel 0 (fst (nth r es ([], 0))) js, snd (nth r es ([], 0)))).
  { intros r Hr. split; cbn [fst]; [unfold x', sel; now rewrite !map_length|]. intros q.
    destruct (in_dec pos_eq_dec q x') as [Hq|Hq]; [rewrite Hco by auto; apply (Hrow r Hr)|rewrite coef_out by auto; now left]. }
  split.
  - constructor; auto.
    + apply Forall_forall. intros e' He'. apply Hsub in He' as (r & Hr & ->). auto.
    + intros q Hq. destruct (Hc q (Ix' q Hq)) as (e & He & Ec). pose proof Hq as Hq2. apply in_map_iff in Hq2 as (k & Ek & Hk).
      apply (In_nth _ _ ([], 0)) in He as (r & Hr & <-). rewrite Forall_forall in Hj.
      assert (Hri : In r is_) by (apply (C2 r k); auto; rewrite <- Hent by auto; rewrite Ek; auto).
      eexists. split; [apply Hsub; exists r; split; [auto|reflexivity]|]. cbn [fst]. rewrite Hco; auto.
    + apply Forall_forall. intros e' He'. apply Hsub in He' as (r & Hr & ->). unfold light. cbn [fst].
      rewrite (@sumz_ext _ _ (fun q => coef (fst (nth r es ([], 0))) x q * 1)) by (intros q Hq; rewrite Hco by auto; lia).
      rewrite <- Hsum by auto. destruct (Hrow r Hr) as (_ & Hli & _). unfold light in Hli.
      rewrite (@sumz_ext _ _ (coef (fst (nth r es ([], 0))) x)) by (intros; lia). exact Hli.
    + apply Forall_forall. intros e' He'. apply Hsub in He' as (r & Hr & ->). destruct (Hrow r Hr) as (_ & _ & (q & Hq & Eq) & _).
      destruct (in_dec pos_eq_dec q x') as [Hq'|Hq']; [|rewrite Hout in Eq by auto; lia].
      exists q. split; auto. cbn [fst]. rewrite Hco; auto.
  - intros v. assert (E : forall r, In r is_ -> (sat_eq x' v (sel 0 (fst (nth r es ([], 0))) js, snd (nth r es ([], 0))) <-> sat_eq x v (nth r es ([], 0)))).
    { intros r Hr. unfold sat_eq. cbn [fst snd]. rewrite !dot_coef; auto; [|apply (Hrow r Hr)|apply (Hwf r Hr)].
      rewrite Hsum by auto. rewrite (@sumz_ext _ _ (fun q => coef (fst (nth r es ([], 0))) x q * b2z (v q)) x'); [tauto|]. intros q Hq. rewrite Hco; auto. }
    rewrite Forall_forall. split.
    + intros H r Hr. apply E; auto. apply H, Hsub. eauto.
    + intros H e' He'. apply Hsub in He' as (r & Hr & ->). apply E; auto.
Qed.

Definition good_block (B : block) : Prop := good (vars B) (eqs B) /\ eqs B <> [].

Record splits (x : list pos) (es : list equation) (parts : list block) : Prop := {
  sp_perm : Permutation x (concat (map vars parts));
  sp_sat : forall v, Forall (sat_eq x v) es <-> sats v parts;
  sp_good : Forall good_block parts
}.

Lemma chunk_matrix_ok fuel : forall x es, good x es -> es <> [] -> (length x < fuel)%nat ->
  exists parts, chunk_matrix fuel es x = Ok parts /\ splits x es parts.
Proof.
  induction fuel as [|fuel IH]; intros x es Hg Hne Hf; [lia|]. pose proof Hg as [Hnd Hw Hc Hl Hn].
  set (n := length x). set (m := length es).
  assert (Hm : (0 < m)%nat) by (destruct es; cbn in *; [contradiction|subst m; cbn; lia]).
  assert (Hlen : Forall (fun e => length (fst e) = n) es) by (eapply Forall_impl; [|exact Hw]; intros e [H _]; exact H).
  assert (Hn0 : (0 < n)%nat).
  { destruct es as [|e es]; [contradiction|]. inversion Hn as [|? ? (q & Hq & _) _]; subst. subst n. destruct x; cbn in *; [tauto|lia]. }
  cbn [chunk_matrix]. rewrite (@vget_ok _ es 0%nat ([], 0)) by auto. cbn [bind]. rewrite (@len_row es n Hlen 0 Hm).
  rewrite vset_ok by (rewrite repeat_length; auto). cbn [bind].
  assert (Hset : forall k, set_of (upd_nth (repeat false n) 0 true) k <-> k = 0%nat).
  { intros k. unfold set_of. destruct (Nat.eq_dec k 0) as [->|Hk]; [rewrite nth_upd_nth_eq by (rewrite repeat_length; auto); tauto|].
    rewrite nth_upd_nth_neq by auto. split; [|contradiction]. destruct (Nat.lt_ge_cases k n); [rewrite nth_repeat|rewrite nth_overflow by (rewrite repeat_length; auto)]; discriminate. }
  destruct (@chunk_reach_ok es n Hlen (S n) (repeat false m) (upd_nth (repeat false n) 0 true) [0%nat]) as (rows & cols & E & L1 & L2 & Mono & K1 & K2).
  { apply repeat_length. } { rewrite length_upd_nth. apply repeat_length. }
  { constructor; auto. split; auto. now apply Hset. }
  { intros r c Hr Hc' Hs. unfold set_of in Hs. rewrite nth_repeat in Hs. discriminate. }
  { intros r c Hr Hc' Hs Hni. apply Hset in Hs. subst. exfalso. apply Hni. now left. }
  { lia. }
  fold m. rewrite E. cbn [bind fst snd]. clear E.
  assert (Bd : forall r c, (r < m)%nat -> (c < n)%nat -> bit (entry es r c)).
  { intros r c Hr Hc'. rewrite Forall_forall in Hw. destruct (Hw _ (nth_In es ([], 0) Hr)) as [Hle Hb].
    unfold entry. rewrite <- (@coef_nth (0, 0)%nat _ x c) by auto. apply Hb. }
  (* the part *)
  destruct (@sub_good x es (rev (marked cols)) (rev (marked rows))) as [G1 S1]; auto.
  { apply NoDup_rev, NoDup_filter, seq_NoDup. }
  { apply Forall_forall. intros k Hk. apply in_rev in Hk. unfold marked in Hk. apply filter_In in Hk as [Hk _]. apply in_seq in Hk. rewrite L2 in Hk. subst n. lia. }
  { apply Forall_forall. intros k Hk. apply in_rev in Hk. unfold marked in Hk. apply filter_In in Hk as [Hk _]. apply in_seq in Hk. lia. }
  { intros r c Hr Hc' He. apply in_rev, In_marked in Hr. rewrite <- in_rev, In_marked. apply (K1 r c); auto; [|lia].
    destruct (Nat.lt_ge_cases r m); auto. rewrite nth_overflow in Hr by lia. discriminate. }
  { intros r c Hr Hc' He. apply in_rev, In_marked in Hc'. rewrite <- in_rev, In_marked. apply (K2 r c); auto; [|lia].
    destruct (Nat.lt_ge_cases c n); auto. rewrite nth_overflow in Hc' by lia. discriminate. }
  (* the rest *)
  destruct (@sub_good x es (unmarked cols) (unmarked rows)) as [G2 S2]; auto.
  { apply NoDup_filter, seq_NoDup. }
  { apply Forall_forall. intros k Hk. apply In_unmarked in Hk. subst n. lia. }
  { apply Forall_forall. intros k Hk. apply In_unmarked in Hk. lia. }
  { intros r c Hr Hc' He. apply In_unmarked in Hr. apply In_unmarked. rewrite L2. split; auto. destruct (nth c cols false) eqn:Ec; auto.
    destruct Hr as [Hr1 Hr2]. rewrite (K2 r c) in Hr2; auto; try lia; try discriminate. }
  { intros r c Hr Hc' He. apply In_unmarked in Hc'. apply In_unmarked. rewrite L1. split; auto. destruct (nth r rows false) eqn:Ec; auto.
    destruct Hc' as [Hc1 Hc2]. rewrite (K1 r c) in Hc2; auto; try lia; try discriminate. }
  rewrite (@mapM_ok _ _ _ (fun i => (sel 0 (fst (nth i es ([], 0))) (rev (marked cols)), snd (nth i es ([], 0))))).
  2:{ intros i Hi. apply in_rev, In_marked in Hi.
      assert (Him : (i < m)%nat) by (destruct (Nat.lt_ge_cases i m); auto; rewrite nth_overflow in Hi by lia; discriminate).
      rewrite (@vget_ok _ es i ([], 0)) by auto. cbn [bind].
      rewrite (@mapM_ok _ _ _ (fun j => nth j (fst (nth i es ([], 0))) 0)); [reflexivity|].
      intros j Hj. apply in_rev, In_marked in Hj. apply vget_ok. rewrite (@len_row es n Hlen) by auto.
      destruct (Nat.lt_ge_cases j n); auto. rewrite nth_overflow in Hj by lia. discriminate. }
  cbn [bind]. rewrite (@mapM_ok _ _ _ (fun j => nth j x (0, 0)%nat)).
  2:{ intros j Hj. apply in_rev, In_marked in Hj. apply vget_ok. destruct (Nat.lt_ge_cases j n); auto. rewrite nth_overflow in Hj by lia. discriminate. }
  cbn [bind]. rewrite (@remove_marked0 _ ([], 0)) by auto. cbn [bind].
  rewrite (@remove_cols _ _ _ (sub x es (unmarked cols) (unmarked rows)) (sel (0, 0)%nat x (unmarked cols))).
  2:{ unfold sub. assert (Hs : forall e, In e (sel ([], 0) es (unmarked rows)) -> In e es).
      { intros e He. apply in_map_iff in He as (k & <- & Hk). apply In_unmarked in Hk. apply nth_In. lia. }
      clear - Hs Hlen L2. induction (sel ([], 0) es (unmarked rows)) as [|e l IHl]; cbn [map]; constructor; [|apply IHl; intros; apply Hs; now right].
      split; auto. cbn [fst]. apply remove_marked0. rewrite Forall_forall in Hlen. rewrite Hlen by (apply Hs; now left). auto. }
  2:{ apply remove_marked0. auto. }
  cbn [bind].
  assert (Epart : map (fun i => (sel 0 (fst (nth i es ([], 0))) (rev (marked cols)), snd (nth i es ([], 0)))) (rev (marked rows)) = sub x es (rev (marked cols)) (rev (marked rows))).
  { unfold sub, sel. rewrite map_map. reflexivity. }
  rewrite Epart. change (map (fun j => nth j x (0, 0)%nat) (rev (marked cols))) with (sel (0, 0)%nat x (rev (marked cols))).
  assert (Hperm : Permutation x (sel (0, 0)%nat x (rev (marked cols)) ++ sel (0, 0)%nat x (unmarked cols))).
  { rewrite <- (sel_seq (0, 0)%nat x) at 1. unfold sel. rewrite <- map_app. apply Permutation_map. rewrite <- Permutation_rev.
    fold n. rewrite <- L2. apply marked_perm. }
  assert (H0 : In 0%nat (rev (marked cols))) by (rewrite <- in_rev, In_marked; apply Mono, Hset; auto).
  assert (Gne : sub x es (rev (marked cols)) (rev (marked rows)) <> []).
  { destruct (@gd_cov _ _ G1 (nth 0 x (0, 0)%nat)) as (e & He & _). { unfold sel. apply (in_map (fun j => nth j x (0, 0)%nat)), H0. }
    intros E. rewrite E in He. destruct He. }
  assert (Hsat : forall v, Forall (sat_eq x v) es <-> Forall (sat_eq (sel (0, 0)%nat x (rev (marked cols))) v) (sub x es (rev (marked cols)) (rev (marked rows))) /\
      Forall (sat_eq (sel (0, 0)%nat x (unmarked cols)) v) (sub x es (unmarked cols) (unmarked rows))).
  { intros v. rewrite S1, S2, Forall_forall. split.
    - intros H. split; intros r Hr; apply H, nth_In; [apply in_rev, In_marked in Hr; destruct (Nat.lt_ge_cases r m); auto; rewrite nth_overflow in Hr by lia; discriminate|apply In_unmarked in Hr; fold m; lia].
    - intros [A B] e He. apply (In_nth _ _ ([], 0)) in He as (r & Hr & <-). destruct (nth r rows false) eqn:Er.
      + apply A. rewrite <- in_rev, In_marked. auto.
      + apply B, In_unmarked. split; auto. lia. }
  destruct (sub x es (unmarked cols) (unmarked rows)) as [|e' es'] eqn:Erest.
  - eexists. split; [reflexivity|].
    assert (Ex : sel (0, 0)%nat x (unmarked cols) = []).
    { destruct (sel (0, 0)%nat x (unmarked cols)) as [|q x']; auto. destruct (@gd_cov _ _ G2 q (or_introl eq_refl)) as (e & [] & _). }
    constructor.
    + cbn [map concat vars]. rewrite Ex in Hperm. exact Hperm.
    + intros v. rewrite Hsat. unfold sats. rewrite Forall_cons_iff. unfold sat at 1. cbn [vars eqs]. intuition auto.
    + constructor; [split; auto|constructor].
  - destruct (IH (sel (0, 0)%nat x (unmarked cols)) (e' :: es') G2) as (parts & E & [P1 P2 P3]); [discriminate| |].
    + pose proof (Permutation_length Hperm) as PL. rewrite app_length in PL. 
      assert (length (sel (0, 0)%nat x (rev (marked cols))) <> 0)%nat.
      { unfold sel. rewrite map_length. destruct (rev (marked cols)); [destruct H0|discriminate]. }
      lia.
    + rewrite E. cbn [bind]. eexists. split; [reflexivity|]. constructor.
      * cbn [map concat vars]. rewrite Hperm at 1. apply Permutation_app_head, P1.
      * intros v. rewrite Hsat, P2. unfold sats. rewrite Forall_cons_iff. reflexivity.
      * constructor; auto. split; auto.
Qed.

(** ** chunk_matrixes *)
Lemma chunk_matrixes_ok bl : Forall good_block bl -> exists bl', chunk_matrixes bl = Ok bl' /\
  Permutation (concat (map vars bl)) (concat (map vars bl')) /\ (forall v, sats v bl <-> sats v bl') /\ Forall good_block bl'.
Proof.
  intros Hg. unfold chunk_matrixes.
  assert (H : forall l out, Forall good_block l -> Forall good_block out -> exists bl',
     foldM (fun out b => let* parts := chunk_matrix (S (length (vars b))) (eqs b) (vars b) in Ok (out ++ parts)) l out = Ok bl' /\
     Permutation (concat (map vars out) ++ concat (map vars l)) (concat (map vars bl')) /\
     (forall v, sats v out /\ sats v l <-> sats v bl') /\ Forall good_block bl').
  { induction l as [|B l IH]; intros out Hl Ho; cbn [foldM].
    - exists out. cbn [map concat]. rewrite app_nil_r. split; auto. split; auto. split; auto. intros v. split; [tauto|]. split; auto. constructor.
    - inversion Hl as [|? ? [HB HBe] Hl']; subst. destruct (chunk_matrix_ok HB HBe (Nat.lt_succ_diag_r _)) as (parts & E & [P1 P2 P3]).
      rewrite E. cbn [bind]. destruct (IH (out ++ parts)) as (bl' & E' & Q1 & Q2 & Q3); auto. { apply Forall_app; auto. }
      exists bl'. split; auto. split; [|split; auto].
      + rewrite <- Q1. cbn [map concat]. rewrite map_app, concat_app, <- app_assoc. apply Permutation_app_head, Permutation_app_tail, P1.
      + intros v. rewrite <- Q2. unfold sats in *. rewrite Forall_app, Forall_cons_iff, <- P2. unfold sat at 2. tauto. }
  destruct (H (rev bl) []) as (bl' & E & A & B & C); auto. { now apply Forall_rev. }
  exists bl'. split; auto. split; [|split; auto].
  - rewrite <- A. cbn [map concat app]. rewrite <- !flat_map_concat_map. clear. induction bl as [|b bl IH]; auto. cbn [rev flat_map].
    rewrite flat_map_app, <- IH. cbn [flat_map]. rewrite app_nil_r. apply Permutation_app_comm.
  - intros v. rewrite <- B. unfold sats. split; [intros Hs; split; [constructor|now apply Forall_rev]|intros [_ Hs]; rewrite <- (rev_involutive bl); now apply Forall_rev].
Qed.
