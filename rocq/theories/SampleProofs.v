(** * SampleProofs: lemmas about Sample. *)
From Verif Require Import Base Spec BaseFacts LayMine LayMineProofs Metrics Utils ExpSpec ExpProofs Sample.
Open Scope Z_scope.

Lemma board1_dim : foldM (fun d i => vset d i (-1)) (rng 380 479) (repeat 0 479) = Ok (repeat 0 380 ++ repeat (-1) 99).
Proof. vm_compute. reflexivity. Qed.

(** writing a run of a list into an array *)
Lemma copy_loop (d arr : list Z) off n : forall m a, (a + m = n)%nat -> (n <= length d)%nat -> (n + off <= length arr)%nat ->
  foldM (fun d2 i => let* v := vget d i in vset d2 (i + off) v) (seq a m) arr =
  Ok (firstn (a + off) arr ++ firstn m (skipn a d) ++ skipn (n + off) arr).
Proof.
  intros m. revert arr. induction m as [|m IH]; intros arr a Ha Hd Harr.
  - cbn [seq foldM firstn app]. replace (n + off)%nat with (a + off)%nat by lia. now rewrite firstn_skipn.
  - cbn [seq foldM]. rewrite (vget_ok 0) by lia. cbn [bind]. rewrite vset_ok by lia. cbn [bind].
    rewrite IH by (rewrite ?length_upd_nth; lia). f_equal.
    assert (E1 : forall k (l : list Z) v, (k < length l)%nat -> firstn (S k) (upd_nth l k v) = firstn k l ++ [v]).
    { induction k as [|k IHk]; intros [|x l] v Hl; simpl in *; try lia; auto. f_equal. apply IHk. lia. }
    assert (E2 : forall k j (l : list Z) v, (k < j)%nat -> skipn j (upd_nth l k v) = skipn j l).
    { induction k as [|k IHk]; intros [|j] [|x l] v Hl; simpl in *; try lia; auto. apply IHk. lia. }
    replace (S a + off)%nat with (S (a + off)) by lia. rewrite E1 by lia. rewrite E2 by lia.
    rewrite (@skipn_nth_cons _ 0 a d) by lia. cbn [firstn]. now rewrite <- !app_assoc.
Qed.

Lemma study_board_laymine shuf x0 y0 : inb 16 30 (x0, y0) ->
  length (shuf (repeat 0 380 ++ repeat (-1) 99)) = 479%nat ->
  study_board shuf x0 y0 = laymine shuf 16 30 99 x0 y0.
Proof.
  intros [Hx Hy] Hl. cbn [fst snd] in *. unfold study_board, laymine. rewrite board1_dim. cbn [bind].
  set (P := (x0 + y0 * 16)%nat). assert (HP : (P < 480)%nat) by (unfold P; lia).
  rewrite (usub_ok (a := 16 * 30) (b := 1)) by lia. cbn [bind]. rewrite usub_ok by lia. cbn [bind].
  change (16 * 30 - 1)%nat with 479%nat. change (479 - 99)%nat with 380%nat.
  set (d := shuf (repeat 0 380 ++ repeat (-1) 99)) in *.
  rewrite push_loop by lia. cbn [bind]. rewrite push_loop by lia. cbn [bind].
  rewrite (foldM_ext (g := fun d2 i => let* v := vget d i in vset d2 (i + 0) v) (l := rng 0 P)) by (intros; now rewrite Nat.add_0_r).
  unfold rng at 1. rewrite (@copy_loop d (repeat 0 480) 0 P) by (rewrite ?repeat_length; lia). cbn [bind].
  rewrite !Nat.add_0_r, ?Nat.sub_0_r. cbn [firstn skipn app].
  set (A := firstn P d). assert (HA : length A = P) by (unfold A; rewrite firstn_length; lia).
  assert (Hsk : length (skipn P (repeat 0 480)) = (480 - P)%nat) by (rewrite skipn_length, repeat_length; reflexivity).
  rewrite vset_ok by (rewrite app_length; lia). cbn [bind].
  unfold rng at 1. rewrite (@copy_loop d _ 1 479) by (rewrite ?length_upd_nth, ?app_length; lia). cbn [bind].
  match goal with |- foldM _ _ ?a = foldM _ _ ?b => idtac end.
  match goal with |- context [vget (firstn (P + 1) (upd_nth (A ++ skipn P (repeat 0 480)) P 0) ++ ?B ++ ?C) _] =>
    assert (E : firstn (P + 1) (upd_nth (A ++ skipn P (repeat 0 480)) P 0) ++ B ++ C = (A ++ [0]) ++ firstn (479 - P) (skipn P d)) end.
  { rewrite (skipn_all2 (n := 479 + 1)) by (rewrite length_upd_nth, app_length; lia). rewrite app_nil_r. f_equal.
    destruct (skipn P (repeat 0 480)) as [|z R] eqn:ER; [cbn [length] in Hsk; lia|].
    clearbody A. clearbody P. clear -HA. revert P HA. induction A as [|x A IH]; intros P HA; cbn [length] in HA; subst P; [reflexivity|].
    cbn [Nat.add app upd_nth firstn]. f_equal. apply IH. reflexivity. }
  rewrite E. reflexivity.
Qed.

(** tallying values below 382 *)
Lemma tally {A} (f : A -> nat) : forall (l : list A) (h : list nat), length h = 382%nat -> (forall x, In x l -> (f x < 382)%nat) ->
  exists h', foldM (fun h x => let* c := vget h (f x) in vset h (f x) (S c)) l h = Ok h' /\ length h' = 382%nat /\
    forall k, nth k h' 0%nat = (nth k h 0 + count (fun x => (f x =? k)%nat) l)%nat.
Proof.
  induction l as [|x l IH]; intros h Hh Hf.
  - exists h. split; [reflexivity|]. split; [exact Hh|]. intros k. rewrite count_nil. lia.
  - cbn [foldM]. assert (Hx : (f x < 382)%nat) by (apply Hf; left; auto).
    rewrite (vget_ok 0%nat) by lia. cbn [bind]. rewrite vset_ok by lia. cbn [bind].
    destruct (IH (upd_nth h (f x) (S (nth (f x) h 0%nat)))) as (h' & E & Hl & Hk).
    { now rewrite length_upd_nth. } { intros y Hy. apply Hf. right; auto. }
    exists h'. split; auto. split; auto. intros k. rewrite Hk, count_cons. destruct (Nat.eqb_spec (f x) k) as [<-|Hn].
    + rewrite nth_upd_nth_eq by lia. lia.
    + rewrite nth_upd_nth_neq by auto. lia.
Qed.

(** adding two histograms *)
Lemma add_hist (h aa : list nat) : length h = 382%nat -> length aa = 382%nat ->
  exists r, foldM (fun aa ii => let* a := vget aa ii in let* c := vget h ii in vset aa ii (a + c)%nat) (rng 0 382) aa = Ok r /\
    length r = 382%nat /\ forall k, nth k r 0%nat = (nth k aa 0 + nth k h 0)%nat.
Proof.
  intros Hh Ha. unfold rng. rewrite Nat.sub_0_r.
  destruct (@foldM_inv (list nat) nat (fun aa ii => let* a := vget aa ii in let* c := vget h ii in vset aa ii (a + c)%nat)
    (fun done r => length r = 382%nat /\ forall k, nth k r 0%nat = (nth k aa 0 + if (k <? length done)%nat then nth k h 0 else 0)%nat)
    (seq 0 382) aa) as (r & E & Hl & Hk).
  - split; [exact Ha|]. intros k. cbn [length]. replace (k <? 0)%nat with false by lia. lia.
  - intros done x rest r Es [Hl Hk]. destruct (seq_split Es) as [-> Hlt].
    rewrite (vget_ok 0%nat) by lia. cbn [bind]. rewrite (vget_ok 0%nat) by lia. cbn [bind]. rewrite vset_ok by lia.
    eexists. split; [reflexivity|]. split; [now rewrite length_upd_nth|]. intros k. rewrite app_length. cbn [length].
    destruct (Nat.eq_dec (length done) k) as [<-|Hn].
    + rewrite nth_upd_nth_eq by lia. rewrite Hk, Nat.ltb_irrefl. replace (length done <? length done + 1)%nat with true by lia. lia.
    + rewrite nth_upd_nth_neq by auto. rewrite Hk. replace (k <? length done + 1)%nat with (k <? length done)%nat by lia. lia.
  - exists r. split; auto. split; auto. intros k. rewrite Hk, seq_length. destruct (Nat.ltb_spec k 382); auto.
    rewrite (nth_overflow h) by lia. reflexivity.
Qed.

Lemma legal_small row column b p : legal_board row column b -> inb row column p -> cell b p <= 999999.
Proof. intros [_ H] Hp. destruct (H p Hp) as [E|E]; [lia|]. pose proof (adj_count_le row column (is_mine b) p). lia. Qed.

(** the value is at most the number of cells without a mine *)
Lemma exp_le_free b : legal_board 16 30 b -> exists k, cal_bbbv_exp b = Ok k /\ (k + mine_count 16 30 b <= 480)%nat.
Proof.
  intros Hl. eexists. split; [apply exp_exact; [apply Hl|intros p; now apply legal_small]|].
  unfold mine_count. change 480%nat with (16 * 30)%nat. rewrite <- length_positions.
  generalize (positions 16 30). intros l.
  assert (G : forall p, ((if island_cellb 16 30 b p then 1 else 0) + (if scan_startb 16 30 b p then 1 else 0) + (if is_mine b p then 1 else 0) <= 1)%nat).
  { intros p. unfold island_cellb, scan_startb, is_mine.
    destruct (Z.ltb_spec 0 (cell b p)), (Z.eqb_spec (cell b p) 0), (Z.eqb_spec (cell b p) (-1)); cbn [andb]; try lia;
    repeat match goal with |- context [if forallb ?f ?l then _ else _] => destruct (forallb f l) end; lia. }
  induction l as [|p l IH]; [cbn; lia|]. rewrite !count_cons. cbn [length]. specialize (G p). lia.
Qed.

Lemma count_list_prod {A B} (f : A * B -> bool) (l : list A) (l' : list B) x :
  count f (list_prod (l ++ [x]) l') = (count f (list_prod l l') + count (fun y => f (x, y)) l')%nat.
Proof.
  rewrite <- (count_map (fun y => (x, y)) f l'). rewrite <- count_app. f_equal.
  induction l as [|a l IH]; cbn [list_prod app]; [now rewrite app_nil_r|]. now rewrite IH, app_assoc.
Qed.

Definition bd (shufs : nat -> nat -> list Z -> list Z) x0 y0 (t i : nat) : board :=
  match study_board (shufs t i) x0 y0 with Ok b => b | _ => [] end.
Definition exp_of (b : board) : nat := match cal_bbbv_exp b with Ok k => k | _ => 0%nat end.

Section S.
Variable shufs : nat -> nat -> list Z -> list Z.
Variables x0 y0 : nat.
Hypothesis Hperm : forall t i l, Permutation l (shufs t i l).
Hypothesis Hin : inb 16 30 (x0, y0).
Lemma bd_ok t i : study_board (shufs t i) x0 y0 = Ok (bd shufs x0 y0 t i) /\
  laymine (shufs t i) 16 30 99 x0 y0 = Ok (bd shufs x0 y0 t i) /\
  legal_board 16 30 (bd shufs x0 y0 t i) /\ mine_count 16 30 (bd shufs x0 y0 t i) = 99%nat /\
  is_mine (bd shufs x0 y0 t i) (x0, y0) = false.
Proof.
  assert (E0 : study_board (shufs t i) x0 y0 = laymine (shufs t i) 16 30 99 x0 y0).
  { apply study_board_laymine; auto. rewrite <- (Permutation_length (Hperm t i _)), app_length, !repeat_length. lia. }
  destruct (@laymine_ok (shufs t i) 16 30 99 x0 y0 (Hperm t i) Hin) as (b & E & H1 & H2 & H3); [lia|].
  unfold bd. rewrite E0, E. auto.
Qed.
Lemma bd_exp t i : cal_bbbv_exp (bd shufs x0 y0 t i) = Ok (exp_of (bd shufs x0 y0 t i)) /\ (exp_of (bd shufs x0 y0 t i) <= 381)%nat.
Proof.
  destruct (bd_ok t i) as (_ & _ & H1 & H2 & _). destruct (exp_le_free H1) as (k & E & Hk). unfold exp_of. rewrite E. split; auto. lia.
Qed.

Lemma study_ok t n : exists h, laymine_study_exp (shufs t) x0 y0 n = Ok h /\ length h = 382%nat /\
  forall k, nth k h 0%nat = count (fun i => (exp_of (bd shufs x0 y0 t i) =? k)%nat) (seq 0 n).
Proof.
  unfold laymine_study_exp, rng. rewrite Nat.sub_0_r.
  destruct (@tally nat (fun i => exp_of (bd shufs x0 y0 t i)) (seq 0 n) (repeat 0%nat 382)) as (h & E & Hl & Hk).
  { apply repeat_length. } { intros i _. pose proof (proj2 (bd_exp t i)). lia. }
  exists h. split; [|split; auto; intros k; rewrite Hk, nth_repeat; lia].
  rewrite <- E. apply foldM_ext. intros s i _. rewrite (proj1 (bd_ok t i)). cbn [bind]. rewrite (proj1 (bd_exp t i)). reflexivity.
Qed.

Lemma sample_ok n : exists h, sample_3BVs_exp shufs x0 y0 n = Ok h /\ length h = 382%nat /\
  forall k, nth k h 0%nat = count (fun g => (exp_of (bd shufs x0 y0 (fst g) (snd g)) =? k)%nat) (list_prod (seq 0 16) (seq 0 (n / 16))).
Proof.
  unfold sample_3BVs_exp. cbv zeta. set (m := (n / 16)%nat). clearbody m. unfold rng at 2. change (16 - 0)%nat with 16%nat.
  match goal with |- context [foldM ?f (seq 0 16) ?s] => destruct (@foldM_inv (list nat) nat f
    (fun done h => length h = 382%nat /\ forall k, nth k h 0%nat = count (fun g => (exp_of (bd shufs x0 y0 (fst g) (snd g)) =? k)%nat) (list_prod done (seq 0 m)))
    (seq 0 16) s) as (h & E & Hl & Hk) end.
  - split; [apply repeat_length|]. intros k. rewrite nth_repeat. reflexivity.
  - intros done t rest h _ [Hl Hk]. destruct (study_ok t m) as (h1 & E1 & Hl1 & Hk1). rewrite E1. cbn [bind].
    destruct (add_hist Hl1 Hl) as (r & E & Hl2 & Hk2). exists r. split; auto. split; auto. intros k.
    rewrite Hk2, Hk, Hk1, count_list_prod. reflexivity.
  - exists h. auto.
Qed.
End S.

Lemma hist_total {A} (f : A -> nat) : forall m (l : list A) (h : list nat), length h = m ->
  (forall k, nth k h 0%nat = count (fun x => (f x =? k)%nat) l) -> (forall x, In x l -> (f x < m)%nat) -> list_sum h = length l.
Proof.
  intros m. 
  assert (G : forall m (h : list nat) (l : list A) off, length h = m ->
    (forall k, nth k h 0%nat = count (fun x => (f x =? off + k)%nat) l) -> list_sum h = count (fun x => ((off <=? f x) && (f x <? off + m))%nat) l).
  { clear. induction m as [|m IH]; intros h l off Hh Hk.
    - destruct h; [|discriminate Hh]. symmetry. apply count_zero. intros. lia.
    - destruct h as [|a h]; [discriminate Hh|]. cbn [list_sum fold_right]. change (fold_right Nat.add 0%nat h) with (list_sum h).
      rewrite (IH h l (S off)).
      + rewrite (count_split (fun x => ((off <=? f x) && (f x <? off + S m))%nat) (fun x => (f x =? off)%nat)).
        pose proof (Hk 0%nat) as H0. cbn [nth] in H0. rewrite H0. f_equal; apply count_ext; intros x _; lia.
      + injection Hh. auto.
      + intros k. specialize (Hk (S k)). cbn [nth] in Hk. rewrite Hk. apply count_ext. intros x _. f_equal. lia. }
  intros l h Hh Hk Hf. rewrite (G m h l 0%nat Hh Hk). clear -Hf. induction l as [|x l IH]; [reflexivity|].
  rewrite count_cons, IH by (intros y Hy; apply Hf; right; auto). specialize (Hf x (or_introl eq_refl)). cbn [length].
  replace ((0 <=? f x) && (f x <? 0 + m))%nat with true by lia. reflexivity.
Qed.
