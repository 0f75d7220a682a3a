(** * PropsGen: C37 (laymine_solvable) and C38 (laymine_solvable_thread). *)
From Verif Require Import Base Spec BaseFacts LayMine LayMineProofs Metrics Refresh RefreshProofs Matrix Solve Solvable SolvableSpec
  Generate PropsUtils PropsSolvable.
Open Scope Z_scope.

(** The preconditions: a board of at least 3x3 cells with room for the mines outside the start zone, and
    shuffles that permute. *)
Definition good_start (row column minenum x0 y0 : nat) : Prop :=
  (3 <= row)%nat /\ (3 <= column)%nat /\ inb row column (x0, y0) /\
  (minenum + count (nearb (x0, y0)) (positions row column) <= row * column)%nat.
(** What every generated board has to be: legal, with [minenum] mines, and a zero at the start. *)
Definition start_board (row column minenum x0 y0 : nat) (b : board) : Prop :=
  legal_board row column b /\ mine_count row column b = minenum /\
  (forall q, inb row column q -> near (x0, y0) q -> is_mine b q = false) /\ cell b (x0, y0) = 0.

Lemma draw_ok shuf row column minenum x0 y0 : (forall l, Permutation l (shuf l)) -> good_start row column minenum x0 y0 ->
  exists b s, laymine_op shuf row column minenum x0 y0 = Ok b /\ start_board row column minenum x0 y0 b /\
    is_solvable b x0 y0 = Ok s /\ (s = true -> no_guess row column b (x0, y0)).
Proof.
  intros Hs (Hr & Hc & Hi & Hm). destruct (@laymine_op_ok shuf row column minenum x0 y0) as (b & E & Hl & H1 & H2 & H3); auto; try lia.
  assert (Hmine : is_mine b (x0, y0) = false) by (unfold is_mine; now rewrite H3).
  destruct (C36_is_solvable Hr Hc Hl Hi Hmine) as (s & Es & Hn & _). exists b, s. repeat split; auto; apply Hl.
Qed.

(** ** C37 *)
(** The call returns; the board is legal, has exactly [minenum] mines and is zero at the start; the flag
    says exactly whether one of the first [max_times] draws passed [is_solvable], and the board is then
    the first such draw, which can be won from the start without guessing. *)
Theorem C37_laymine_solvable : forall shuf row column minenum x0 y0 max_times,
  (forall k l, Permutation l (shuf k l)) -> good_start row column minenum x0 y0 ->
  exists b flag, laymine_solvable shuf row column minenum x0 y0 max_times = Ok (b, flag) /\
    start_board row column minenum x0 y0 b /\
    (flag = true -> no_guess row column b (x0, y0) /\
       exists k, (k < max_times)%nat /\ laymine_op (shuf k) row column minenum x0 y0 = Ok b /\ is_solvable b x0 y0 = Ok true /\
         forall j, (j < k)%nat -> exists b', laymine_op (shuf j) row column minenum x0 y0 = Ok b' /\ is_solvable b' x0 y0 = Ok false) /\
    (flag = false -> forall j, (j < max_times)%nat ->
       exists b', laymine_op (shuf j) row column minenum x0 y0 = Ok b' /\ is_solvable b' x0 y0 = Ok false).
Proof.
  intros shuf row column minenum x0 y0 max_times Hs Hg. unfold laymine_solvable.
  enough (G : forall todo k, exists b flag, solvable_draws shuf row column minenum x0 y0 k todo = Ok (b, flag) /\
    start_board row column minenum x0 y0 b /\
    (flag = true -> no_guess row column b (x0, y0) /\
       exists j, (k <= j < k + todo)%nat /\ laymine_op (shuf j) row column minenum x0 y0 = Ok b /\ is_solvable b x0 y0 = Ok true /\
         forall i, (k <= i < j)%nat -> exists b', laymine_op (shuf i) row column minenum x0 y0 = Ok b' /\ is_solvable b' x0 y0 = Ok false) /\
    (flag = false -> forall j, (k <= j < k + todo)%nat ->
       exists b', laymine_op (shuf j) row column minenum x0 y0 = Ok b' /\ is_solvable b' x0 y0 = Ok false)).
  { destruct (G max_times 0%nat) as (b & flag & E & H1 & H2 & H3). exists b, flag. split; [exact E|]. split; [exact H1|]. split.
    - intros F. destruct (H2 F) as (N & j & Hj & Ej & Es & Hi). split; auto. exists j. split; [lia|]. split; auto. split; auto. intros i Hlt. apply Hi. lia.
    - intros F j Hj. apply H3; auto. lia. }
  induction todo as [|todo IH]; intros k; cbn [solvable_draws];
    destruct (@draw_ok (shuf k) row column minenum x0 y0 (Hs k) Hg) as (b & s & E & Hb & Es & Hn); rewrite E; cbn [bind].
  - exists b, false. split; [reflexivity|]. split; [exact Hb|]. split; [discriminate|]. intros _ j Hj. lia.
  - rewrite Es. cbn [bind]. destruct s.
    + exists b, true. split; [reflexivity|]. split; [exact Hb|]. split; [|discriminate]. intros _. split; auto.
      exists k. split; [lia|]. split; auto. split; auto. intros i Hi. lia.
    + destruct (IH (S k)) as (b' & flag & E' & H1 & H2 & H3). exists b', flag. split; [exact E'|]. split; [exact H1|]. split.
      * intros F. destruct (H2 F) as (N & j & Hj & Ej & Esj & Hi). split; auto. exists j. split; [lia|]. split; auto. split; auto.
        intros i Hlt. destruct (Nat.eq_dec i k) as [->|]; [eauto|]. apply Hi. lia.
      * intros F j Hj. destruct (Nat.eq_dec j k) as [->|]; [eauto|]. apply H3; auto. lia.
Qed.
Print Assumptions C37_laymine_solvable.

(** ** C38 *)
Section Threads.
Variables (shuf : nat -> nat -> list Z -> list Z) (row column minenum x0 y0 : nat).
Hypothesis Hshuf : forall w k l, Permutation l (shuf w k l).
Hypothesis Hgood : good_start row column minenum x0 y0.
Let step := pool_step shuf row column minenum x0 y0.
Let steps := pool_steps shuf row column minenum x0 y0.

Definition msg_ok (m : board * bool) : Prop :=
  start_board row column minenum x0 y0 (fst m) /\
  (snd m = true -> is_solvable (fst m) x0 y0 = Ok true /\ no_guess row column (fst m) (x0, y0)).
Definition phase_ok (t : nat) (ph : phase) : Prop :=
  match ph with
  | Check k => (k <= t)%nat
  | Lay k => (k < t)%nat
  | Found b k | Sending b k => msg_ok (b, true)
  | Dead => False
  | _ => True
  end.
Definition sending (ph : phase) : bool := match ph with Sending _ _ => true | _ => false end.
Definition is_done (ph : phase) : bool := match ph with Done => true | _ => false end.
Definition pool_inv (s : pool) : Prop :=
  Forall (fun w => phase_ok (fst w) (snd w)) (workers s) /\
  Forall msg_ok (channel s) /\
  (locked s = true -> exists w, In w (workers s) /\ sending (snd w) = true) /\
  ((exists w, In w (workers s) /\ is_done (snd w) = true) -> channel s <> []) /\
  workers s <> [].

Lemma upd_nth_In_other {A} (l : list A) i x y : In y l -> (exists d, nth_error l i = Some d /\ d <> y) \/ nth_error l i = None -> In y (upd_nth l i x).
Proof.
  revert i; induction l as [|a l IH]; intros [|i] Hy H; cbn in *; auto.
  - destruct H as [(d & E & N)|E]; [|discriminate]. injection E as ->. destruct Hy; [congruence|auto].
  - destruct Hy as [->|Hy]; auto.
Qed.
Lemma In_upd_nth {A} (l : list A) i x y : In y (upd_nth l i x) -> y = x \/ In y l.
Proof. revert i; induction l as [|a l IH]; intros [|i] H; cbn in *; auto; try tauto. - destruct H as [->|H]; auto. - destruct H as [->|H]; auto. destruct (IH _ H); auto. Qed.
Lemma In_upd_same {A} (l : list A) i x d : nth_error l i = Some d -> In x (upd_nth l i x).
Proof. revert i; induction l as [|a l IH]; intros [|i] H; cbn in *; try discriminate; eauto. Qed.
Lemma upd_nth_not_nil {A} (l : list A) i x : l <> [] -> upd_nth l i x <> [].
Proof. destruct l, i; cbn; congruence. Qed.
Lemma Forall_upd {A} (P : A -> Prop) l i x : Forall P l -> P x -> Forall P (upd_nth l i x).
Proof. revert i; induction l as [|a l IH]; intros [|i] H Hx; cbn; auto; inversion H; subst; constructor; auto. Qed.

Lemma pool_inv_start max_times : pool_inv (start_pool max_times).
Proof.
  unfold start_pool, pool_inv. cbn [workers channel locked]. split; [|split; [|split; [|split]]].
  - apply Forall_map, Forall_forall. intros t _. cbn. lia.
  - constructor.
  - discriminate.
  - intros (w & Hw & Hd). apply in_map_iff in Hw as (t & <- & _). discriminate.
  - cbn [budgets map]. discriminate.
Qed.
Lemma pool_inv_step s t : pool_inv s -> step s t -> pool_inv t.
Proof.
  intros (F & C & L & D & N) H. destruct H as [w max_time ph ph' flag flag' lock lock' ws ch ch' Hw E].
  cbn [workers channel locked] in *.
  assert (Pw : phase_ok max_time ph) by (rewrite Forall_forall in F; apply (F (max_time, ph)); eapply nth_error_In; eauto).
  assert (Keep : forall y, In y ws -> snd y <> ph -> In y (upd_nth ws w (max_time, ph'))).
  { intros y Hy Hn. apply upd_nth_In_other; auto. left. exists (max_time, ph). split; auto. intros <-. now apply Hn. }
  unfold pool_inv. cbn [workers channel locked].
  assert (G : phase_ok max_time ph' /\ Forall msg_ok ch' /\ (lock' = true -> sending ph' = true \/ (lock = true /\ sending ph = false))
    /\ (is_done ph' = true -> ch' <> []) /\ (ch <> [] -> ch' <> [])).
  { unfold worker_step in E. destruct ph as [k|k|b k|b k|k| |]; cbn [phase_ok] in Pw.
    - destruct (Nat.ltb_spec k max_time).
      + destruct lock; [discriminate|]. injection E as <- <- <- <-. destruct flag; cbn; repeat split; auto; try discriminate.
      + injection E as <- <- <- <-. cbn. repeat split; auto; try discriminate.
    - destruct (draw_ok (Hshuf w k) Hgood) as (b & s & E1 & Hb & E2 & Hn). rewrite E1, E2 in E. injection E as <- <- <- <-. destruct s; cbn; repeat split; auto; try discriminate; try apply Hb; try lia.
    - destruct lock; [discriminate|]. injection E as <- <- <- <-. cbn. repeat split; auto; try discriminate; apply Pw; reflexivity.
    - injection E as <- <- <- <-. cbn. repeat split; auto; try discriminate; try (intros _ H; now apply app_eq_nil in H as [_ H]).
      apply Forall_app. split; auto.
    - destruct (draw_ok (Hshuf w k) Hgood) as (b & s & E1 & Hb & E2 & Hn). rewrite E1 in E. injection E as <- <- <- <-. cbn.
      repeat split; auto; try (intros _ H; now apply app_eq_nil in H as [_ H]). apply Forall_app. split; auto. constructor; auto. split; cbn; auto. discriminate.
    - discriminate.
    - discriminate. }
  destruct G as (G1 & G2 & G3 & G4 & G5). split; [|split; [|split; [|split]]]; auto.
  - apply Forall_upd; auto.
  - intros Hl. destruct (G3 Hl) as [Hx|[Hx Hy]].
    + exists (max_time, ph'). split; auto. eapply In_upd_same; eauto.
    + destruct (L Hx) as (y & Hin & Hsy). exists y. split; auto. apply Keep; auto. intros <-. congruence.
  - intros (y & Hy & Hd). destruct (In_upd_nth Hy) as [->|Hin]; [now apply G4|]. apply G5, D. eauto.
  - now apply upd_nth_not_nil.
Qed.
Lemma pool_inv_steps n s t : pool_inv s -> steps n s t -> pool_inv t.
Proof. intros Hs H. induction H; auto. eapply pool_inv_step; [|eassumption]. auto. Qed.

Definition phase_left (t : nat) (ph : phase) : nat :=
  match ph with
  | Check k => 2 * (t - k) + 4 | Lay k => 2 * (t - k) + 3 | Found _ _ => 3 | Sending _ _ => 2 | Last _ => 1 | Done => 0 | Dead => 0
  end.
Definition pool_left (s : pool) : nat := list_sum (map (fun w => phase_left (fst w) (snd w)) (workers s)).
Lemma list_sum_upd {A} (f : A -> nat) l i x d : nth_error l i = Some d ->
  (list_sum (map f (upd_nth l i x)) + f d = list_sum (map f l) + f x)%nat.
Proof.
  revert i; induction l as [|a l IH]; intros [|i] H; cbn in *; try discriminate.
  - injection H as ->. lia.
  - specialize (IH _ H). unfold list_sum in *. lia.
Qed.
Lemma pool_left_step s t : pool_inv s -> step s t -> (pool_left t < pool_left s)%nat.
Proof.
  intros (F & _) H. destruct H as [w max_time ph ph' flag flag' lock lock' ws ch ch' Hw E]. cbn [workers] in F.
  assert (Pw : phase_ok max_time ph) by (rewrite Forall_forall in F; apply (F (max_time, ph)); eapply nth_error_In; eauto).
  unfold pool_left. cbn [workers].
  pose proof (list_sum_upd (fun w => phase_left (fst w) (snd w)) (max_time, ph') Hw) as S. cbn [fst snd] in S.
  enough (phase_left max_time ph' < phase_left max_time ph)%nat by lia. clear S.
  unfold worker_step in E. destruct ph as [k|k|b k|b k|k| |]; cbn [phase_ok] in Pw.
  - destruct (Nat.ltb_spec k max_time).
    + destruct lock; [discriminate|]. injection E as <- <- <- <-. destruct flag; cbn [phase_left]; lia.
    + injection E as <- <- <- <-. cbn [phase_left]. lia.
  - injection E as <- <- <- <-. destruct (laymine_op _ _ _ _ _ _) as [b| | |]; [destruct (is_solvable b x0 y0) as [[]| | |]|..]; cbn [phase_left]; lia.
  - destruct lock; [discriminate|]. injection E as <- <- <- <-. cbn [phase_left]. lia.
  - injection E as <- <- <- <-. cbn [phase_left]. lia.
  - destruct (laymine_op _ _ _ _ _ _) as [b| | |]; injection E as <- <- <- <-; cbn [phase_left]; lia.
  - discriminate.
  - discriminate.
Qed.
Lemma pool_progress s : pool_inv s -> ended s = false -> exists t, step s t.
Proof.
  intros (F & _ & L & _) H. destruct s as [ws flag lock ch]. cbn [workers locked channel] in *. unfold ended in H. cbn [workers] in H.
  assert (Go : forall w t ph r, nth_error ws w = Some (t, ph) -> worker_step shuf row column minenum x0 y0 w t ph flag lock ch = Some r ->
    exists s', step (Pool ws flag lock ch) s').
  { intros w t ph [[[ph' flag'] lock'] ch'] Hw E. eexists. eapply pool_step_intro; eauto. }
  destruct lock.
  - destruct (L eq_refl) as ([t ph] & Hin & Hs). cbn [snd] in Hs. destruct (In_nth_error _ _ Hin) as (w & Hw). destruct ph; try discriminate. eapply Go; [exact Hw|]. reflexivity.
  - assert (Hx : exists w t ph, nth_error ws w = Some (t, ph) /\ match ph with Done | Dead => False | _ => True end).
    { clear -H. induction ws as [|[t ph] ws IH]; [discriminate|]. cbn [forallb snd] in H. destruct ph; try (exists 0%nat; do 2 eexists; split; [reflexivity|exact I]);
      destruct (IH H) as (w & t' & ph' & E & Hp); exists (S w), t', ph'; auto. }
    destruct Hx as (w & t & ph & Hw & Hp).
    destruct ph; try contradiction.
    + destruct (worker_step shuf row column minenum x0 y0 w t (Check k) flag false ch) as [r|] eqn:E; [exact (Go _ _ _ _ Hw E)|]. cbn [worker_step] in E. destruct (k <? t)%nat; discriminate.
    + eapply Go; [exact Hw|]. reflexivity.
    + eapply Go; [exact Hw|]. reflexivity.
    + eapply Go; [exact Hw|]. reflexivity.
    + destruct (draw_ok (Hshuf w k) Hgood) as (b & s & E1 & _). eapply Go; [exact Hw|]. cbn [worker_step]. rewrite E1. reflexivity.
Qed.
Lemma pool_result s : pool_inv s -> ended s = true -> exists m, received s = Ok m /\ msg_ok m.
Proof.
  intros (F & C & _ & D & N) H. unfold received.
  assert (E : existsb (fun w => match snd w with Dead => true | _ => false end) (workers s) = false).
  { apply not_true_is_false. intros Hx. apply existsb_exists in Hx as ([t ph] & Hin & Hd). rewrite Forall_forall in F. specialize (F _ Hin). cbn in F, Hd. destruct ph; try discriminate. contradiction. }
  rewrite E.
  assert (Hc : channel s <> []).
  { apply D. destruct (workers s) as [|[t ph] ws] eqn:Ew; [contradiction|]. exists (t, ph). split; [now left|].
    unfold ended in H. rewrite Ew in H. cbn [forallb snd] in H. apply andb_true_iff in H as [H _]. inversion F; subst. destruct ph; try discriminate; auto; contradiction. }
  destruct (channel s) as [|m l] eqn:Ec; [contradiction|]. exists m. split; auto. now inversion C.
Qed.
End Threads.

Lemma budgets_sum ii n : (0 < ii)%nat -> list_sum (budgets ii n) = n.
Proof.
  revert n; induction ii as [|ii IH]; intros n H; [lia|]. change (budgets (S ii) n) with ((n / S ii)%nat :: budgets ii (n - n / S ii)).
  assert (n / S ii <= n)%nat by (apply Nat.div_le_upper_bound; nia).
  destruct ii as [|ii].
  - rewrite Nat.div_1_r. cbn. lia.
  - change (n / S (S ii) + list_sum (budgets (S ii) (n - n / S (S ii))) = n)%nat. rewrite IH by lia. lia.
Qed.

(** Every execution, whatever the schedule, has at most [2 * max_times + 32] steps; *)
Theorem C38_every_schedule_ends : forall shuf row column minenum x0 y0 max_times,
  (forall w k l, Permutation l (shuf w k l)) -> good_start row column minenum x0 y0 ->
  forall n s, pool_steps shuf row column minenum x0 y0 n (start_pool max_times) s -> (n <= 2 * max_times + 32)%nat.
Proof.
  intros shuf row column minenum x0 y0 max_times Hs Hg n s H.
  enough (n + pool_left s <= pool_left (start_pool max_times))%nat.
  { enough (pool_left (start_pool max_times) = 2 * max_times + 32)%nat by lia.
    unfold pool_left, start_pool. cbn [workers]. rewrite map_map. cbn [fst snd phase_left].
    rewrite <- (@budgets_sum 8 max_times) at 2 by lia.
    assert (L : length (budgets 8 max_times) = 8%nat) by reflexivity.
    enough (G : forall l, list_sum (map (fun x => (2 * (x - 0) + 4)%nat) l) = (2 * list_sum l + 4 * length l)%nat) by (rewrite G, L; lia).
    unfold list_sum. induction l as [|a l IH]; cbn [map fold_right length]; [reflexivity|]. rewrite IH. lia. }
  remember (start_pool max_times) as s0 eqn:E0. assert (I0 : pool_inv row column minenum x0 y0 s0) by (subst; eapply pool_inv_start; eauto). clear E0.
  induction H as [|n s t u H IH St]; [lia|]. specialize (IH I0). assert (It : pool_inv row column minenum x0 y0 t) by (eapply pool_inv_steps; eauto). assert (pool_left u < pool_left t)%nat by (eapply pool_left_step; eauto). lia.
Qed.
Print Assumptions C38_every_schedule_ends.
(** no execution gets stuck before every worker has ended; *)
Theorem C38_no_deadlock : forall shuf row column minenum x0 y0 max_times,
  (forall w k l, Permutation l (shuf w k l)) -> good_start row column minenum x0 y0 ->
  forall n s, pool_steps shuf row column minenum x0 y0 n (start_pool max_times) s ->
    ended s = true \/ exists t, pool_step shuf row column minenum x0 y0 s t.
Proof.
  intros shuf row column minenum x0 y0 max_times Hs Hg n s H. destruct (ended s) eqn:E; auto. right.
  eapply pool_progress; eauto. eapply pool_inv_steps; eauto. eapply pool_inv_start; eauto.
Qed.
Print Assumptions C38_no_deadlock.
(** and the answer is then a legal board with exactly [minenum] mines and a zero at the start, which, if
    flagged, passes [is_solvable] and can be won without guessing. *)
Theorem C38_result : forall shuf row column minenum x0 y0 max_times,
  (forall w k l, Permutation l (shuf w k l)) -> good_start row column minenum x0 y0 ->
  forall n s, pool_steps shuf row column minenum x0 y0 n (start_pool max_times) s -> ended s = true ->
    exists b flag, received s = Ok (b, flag) /\ start_board row column minenum x0 y0 b /\
      (flag = true -> is_solvable b x0 y0 = Ok true /\ no_guess row column b (x0, y0)).
Proof.
  intros shuf row column minenum x0 y0 max_times Hs Hg n s H He.
  destruct (@pool_result row column minenum x0 y0 s) as ([b flag] & E & H1 & H2); auto.
  - eapply pool_inv_steps; eauto. eapply pool_inv_start; eauto.
  - exists b, flag. auto.
Qed.
Print Assumptions C38_result.
(** The attempts are divided among the eight workers without loss. *)
Theorem C38_budgets : forall max_times, list_sum (budgets 8 max_times) = max_times /\ length (budgets 8 max_times) = 8%nat.
Proof. intros. split; [apply budgets_sum; lia|reflexivity]. Qed.

(** *** cases *)
Definition rotate (n : nat) (l : list Z) : list Z := skipn (n mod S (length l)) l ++ firstn (n mod S (length l)) l.
Lemma rotate_perm n l : Permutation l (rotate n l).
Proof. unfold rotate. rewrite Permutation_app_comm, firstn_skipn. reflexivity. Qed.
Lemma good44 : good_start 4 4 2 0 0.
Proof. split; [lia|]. split; [lia|]. split; [split; cbn; lia|vm_compute; lia]. Qed.
Example C37_case : good_start 4 4 2 0 0 /\ (forall k l, Permutation l (rotate k l)) /\
  exists b, laymine_solvable rotate 4 4 2 0 0 20 = Ok (b, true).
Proof.
  split; [exact good44|]. split; [intros; apply rotate_perm|].
  eexists. vm_compute. reflexivity.
Qed.

(** executing a schedule: the list of the workers that move *)
Fixpoint schedule (shuf : nat -> nat -> list Z -> list Z) (row column minenum x0 y0 : nat) (l : list nat) (s : pool) : option pool :=
  match l with
  | [] => Some s
  | w :: l =>
      match nth_error (workers s) w with
      | Some (t, ph) =>
          match worker_step shuf row column minenum x0 y0 w t ph (exit_flag s) (locked s) (channel s) with
          | Some (ph', flag', lock', ch') =>
              schedule shuf row column minenum x0 y0 l (Pool (upd_nth (workers s) w (t, ph')) flag' lock' ch')
          | None => None
          end
      | None => None
      end
  end.
Lemma schedule_steps shuf row column minenum x0 y0 l : forall n s0 s t, pool_steps shuf row column minenum x0 y0 n s0 s ->
  schedule shuf row column minenum x0 y0 l s = Some t -> pool_steps shuf row column minenum x0 y0 (n + length l) s0 t.
Proof.
  induction l as [|w l IH]; intros n s0 s t H E; cbn [schedule length] in *.
  - injection E as <-. now rewrite Nat.add_0_r.
  - destruct s as [ws flag lock ch]. cbn [workers exit_flag locked channel] in E. destruct (nth_error ws w) as [[m ph]|] eqn:Ew; [|discriminate].
    destruct (worker_step _ _ _ _ _ _ w m ph flag lock ch) as [[[[ph' flag'] lock'] ch']|] eqn:Es; [|discriminate].
    rewrite <- Nat.add_succ_comm. eapply IH; [|exact E]. econstructor; [exact H|]. econstructor; eauto.
Qed.
Definition turns (w : nat) : list nat := [w; w].
Definition idlers : list nat := flat_map turns [0; 1; 2; 3; 4; 5; 6]%nat.
(** One attempt, which is a success: if the worker that makes it is the first to send, the call succeeds; *)
Example C38_case : good_start 4 4 2 0 0 /\
  exists s, pool_steps (fun _ => rotate) 4 4 2 0 0 19 (start_pool 1) s /\ ended s = true /\
    exists b, received s = Ok (b, true) /\ no_guess 4 4 b (0, 0)%nat.
Proof.
  split; [exact good44|].
  destruct (schedule (fun _ => rotate) 4 4 2 0 0 ([7; 7; 7; 7; 7]%nat ++ idlers) (start_pool 1)) as [s|] eqn:E; [|vm_compute in E; discriminate].
  exists s. assert (H : pool_steps (fun _ => rotate) 4 4 2 0 0 19 (start_pool 1) s) by exact (schedule_steps (pool_steps_0 _ _ _ _ _ _ _) E).
  split; [exact H|]. assert (He : ended s = true) by (vm_compute in E; injection E as <-; reflexivity). split; [exact He|].
  destruct (C38_result (fun _ => rotate_perm) good44 H He) as (b & flag & Er & _ & Hf).
  exists b. assert (flag = true) as -> by (vm_compute in E; injection E as <-; vm_compute in Er; now injection Er as _ <-). split; [exact Er|]. now apply Hf.
Qed.
(** but the call can also report failure although a worker has found a board and sent it: only the first
    message counts, and every worker also sends an unsuccessful board when it ends. *)
Theorem C38_success_may_be_lost : good_start 4 4 2 0 0 /\ (forall k l, Permutation l (rotate k l)) /\
  exists n s b, pool_steps (fun _ => rotate) 4 4 2 0 0 n (start_pool 1) s /\ ended s = true /\
    In (b, true) (channel s) /\ is_solvable b 0 0 = Ok true /\ exists b', received s = Ok (b', false).
Proof.
  split; [exact good44|]. split; [intros; apply rotate_perm|].
  destruct (schedule (fun _ => rotate) 4 4 2 0 0 ([7; 7; 7]%nat ++ idlers ++ [7; 7]%nat) (start_pool 1)) as [s|] eqn:E; [|vm_compute in E; discriminate].
  exists 19%nat, s. eexists. split; [exact (schedule_steps (pool_steps_0 _ _ _ _ _ _ _) E)|].
  vm_compute in E. injection E as <-. split; [reflexivity|]. split; [cbn [channel]; do 7 right; left; reflexivity|].
  split; [vm_compute; reflexivity|]. eexists. vm_compute. reflexivity.
Qed.
Print Assumptions C38_success_may_be_lost.
