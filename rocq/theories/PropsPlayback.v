(** * Properties of playback: C40 (set_current_time), C49 (get_game_board_poss). *)
From Verif Require Import Base Spec BaseFacts LayMine MineBoard BoardCache Evf BaseVideo.
Open Scope Z_scope.

(** Event times never decrease. *)
Definition sorted (ts : list Z) : Prop :=
  forall i j, (i <= j < length ts)%nat -> nth i ts 0 <= nth j ts 0.

(** Event [id] is the one shown at time [t]: the last event not later than [t], or the first event
    if all are later. *)
Definition shown_at (ts : list Z) (t : Z) (id : nat) : Prop :=
  (id < length ts)%nat /\
  ((nth id ts 0 <= t /\ forall j, (id < j < length ts)%nat -> t < nth j ts 0) \/
   (id = 0%nat /\ forall j, (j < length ts)%nat -> t < nth j ts 0)).

Lemma seek_forward_ok ts t : sorted ts -> forall fuel cur,
  (length ts <= cur + fuel)%nat -> (cur < length ts)%nat -> nth cur ts 0 <= t ->
  exists id, seek_forward fuel ts t cur = Ok id /\ shown_at ts t id.
Proof.
  intros Hs. induction fuel as [|f IH]; intros cur Hf Hc Ht; [lia|].
  cbn [seek_forward]. unfold usub. replace (1 <=? length ts)%nat with true by lia. cbn [bind].
  destruct (length ts - 1 <=? cur)%nat eqn:E.
  - exists cur. split; auto. split; [lia|]. left. split; auto. intros j Hj. lia.
  - rewrite (vget_ok 0) by lia. cbn [bind]. destruct (nth (S cur) ts 0 <=? t) eqn:E1.
    + apply IH; lia.
    + exists cur. split; [f_equal; lia|]. split; [lia|]. left. split; auto.
      intros j Hj. specialize (Hs (S cur) j). lia.
Qed.

Lemma seek_back_ok ts t : sorted ts -> forall cur, (cur < length ts)%nat ->
  (forall j, (cur <= j < length ts)%nat -> t < nth j ts 0) ->
  exists id, seek_back ts t cur = Ok id /\ shown_at ts t id.
Proof.
  intros Hs. induction cur as [|c IH]; intros Hc Hlt; cbn [seek_back].
  - exists 0%nat. split; auto. split; auto. right. split; auto. intros j Hj. apply Hlt. lia.
  - rewrite (vget_ok 0) by lia. cbn [bind]. destruct (t <? nth c ts 0) eqn:E.
    + apply IH; [lia|]. intros j Hj. specialize (Hs c j). lia.
    + exists c. split; auto. split; [lia|]. left. split; [lia|]. intros j Hj. apply Hlt. lia.
Qed.

(** ** C40 *)

(** For every sorted event list, every current event and every requested time (the sum of the
    argument and delta_time, as the machine computes it): unless the current event is already exactly
    at that time, the event shown at that time is selected; if it is, playback moves one event back. *)
Theorem C40_seek : forall ts cur t, sorted ts -> (cur < length ts)%nat ->
  exists id, seek ts t cur = Ok id /\
    (nth cur ts 0 <> t -> shown_at ts t id) /\
    (nth cur ts 0 = t -> id = (cur - 1)%nat).
Proof.
  intros ts cur t Hs Hc. unfold seek. rewrite (vget_ok 0) by lia. cbn [bind].
  destruct (nth cur ts 0 <? t) eqn:E.
  - destruct (@seek_forward_ok ts t Hs (S (length ts)) cur) as (id & E1 & H); try lia.
    exists id. split; auto. split; auto. intros. lia.
  - destruct (Z.eq_dec (nth cur ts 0) t) as [Ee|Ne].
    + destruct cur as [|c].
      { exists 0%nat. split; [reflexivity|]. split; [congruence|]. auto. }
      exists c. cbn [seek_back]. rewrite (vget_ok 0) by lia. cbn [bind].
      pose proof (Hs c (S c)). replace (t <? nth c ts 0) with false by lia.
      split; auto. split; [congruence|]. intros _. lia.
    + destruct (@seek_back_ok ts t Hs cur Hc) as (id & E1 & H).
      { intros j Hj. specialize (Hs cur j). lia. }
      exists id. split; auto. split; auto. contradiction.
Qed.
Print Assumptions C40_seek.

(** The whole call, on an analysed video: it selects the event shown at time [t] and the displayed
    clock is [t] clamped to the video's range, provided the current event is not exactly at [t]. *)
Theorem C40_set_current_time_partial : forall v t,
  b_state v = Display -> sorted (map r_time (b_rec v)) -> (b_cur v < length (b_rec v))%nat ->
  nth (b_cur v) (map r_time (b_rec v)) 0 - b_delta v <> t ->
  exists v' last, set_current_time v t = Ok v' /\
    shown_at (map (fun r => r_time r - b_delta v) (b_rec v)) t (b_cur v') /\
    nth_error (b_rec v) (length (b_rec v) - 1) = Some last /\
    b_time v' = Z.min (Z.max t (- b_delta v)) (r_time last - b_delta v) /\
    b_rec v' = b_rec v /\ b_delta v' = b_delta v /\ b_state v' = Display /\ b_meta v' = b_meta v.
Proof.
  intros v t Hd Hs Hc Hne.
  destruct (exists_last (l := b_rec v)) as (pre & r & Hl). { intros E. rewrite E in Hc. cbn in Hc. lia. }
  unfold set_current_time, get_video_start_time, get_video_end_time. rewrite Hd.
  assert (Er : rev (b_rec v) = r :: rev pre) by (rewrite Hl, rev_app_distr; reflexivity).
  rewrite Er. cbn [bind].
  destruct (@C40_seek (map r_time (b_rec v)) (b_cur v) (t + b_delta v)) as (id & E & H1 & _); auto.
  { now rewrite map_length. }
  rewrite E. cbn [bind]. eexists. exists r. split; [reflexivity|].
  specialize (H1 ltac:(lia)). cbn [b_cur b_time b_rec b_delta b_state b_meta bw_cur bw_time].
  assert (Hn : forall j, (j < length (b_rec v))%nat ->
     nth j (map (fun r => r_time r - b_delta v) (b_rec v)) 0 = nth j (map r_time (b_rec v)) 0 - b_delta v).
  { intros j Hj. rewrite (nth_indep _ 0 (r_time r - b_delta v)) by (rewrite map_length; lia).
    rewrite (map_nth (fun r => r_time r - b_delta v)).
    rewrite (nth_indep (map r_time _) 0 (r_time r)) by (rewrite map_length; lia).
    now rewrite (map_nth r_time). }
  split.
  - destruct H1 as [Hlt H1]. rewrite map_length in Hlt, H1. split; [now rewrite map_length|].
    rewrite map_length. destruct H1 as [[A B]|[A B]].
    + left. rewrite Hn by lia. split; [lia|]. intros j Hj. rewrite Hn by lia. specialize (B j Hj). lia.
    + right. split; auto. intros j Hj. rewrite Hn by lia. specialize (B j Hj). lia.
  - split.
    { rewrite Hl, app_length. cbn [length]. rewrite nth_error_app2 by lia.
      replace (length pre + 1 - 1 - length pre)%nat with 0%nat by lia. reflexivity. }
    split; [|auto].
    destruct (t <? - b_delta v) eqn:E1;
      match goal with |- context [if ?c then _ else _] => destruct c eqn:E2 end; lia.
Qed.
Print Assumptions C40_set_current_time_partial.

(** The full property fails: asking for the same time twice moves one event back each time. *)
Definition mini_rec (t : Z) (useful next : nat) : rec :=
  Rec t e_mv 0 0 useful 0 next UpUp 0 0 0 0 0 0 [].
Definition mini_video (h w : nat) (rs : list rec) (st : list gboard) (cur : nat) : bv :=
  BV (vw_height (vw_width video_default w) h) mb_default Display rs st 0 0 0 0 cur [] 0 0 [] true false false.
Theorem C40_refuted_same_time_twice :
  let v := mini_video 1 1 (map (fun t => mini_rec t 0 0) [0; 10; 20; 30]) [] 0 in
  exists v1 v2 v3, set_current_time v 20 = Ok v1 /\ b_cur v1 = 2%nat /\
    set_current_time v1 20 = Ok v2 /\ b_cur v2 = 1%nat /\ b_time v2 = 20 /\
    (* also after choosing the event itself *)
    set_current_event_id v 2 = Ok (v3, Some 0%nat) /\ b_time v3 = 20 /\
    (exists v4, set_current_time v3 (b_time v3) = Ok v4 /\ b_cur v4 = 1%nat).
Proof.
  cbn zeta. eexists. eexists. eexists.
  split; [vm_compute; reflexivity|]. split; [reflexivity|].
  split; [vm_compute; reflexivity|]. split; [reflexivity|]. split; [reflexivity|].
  split; [vm_compute; reflexivity|]. split; [reflexivity|].
  eexists. split; [vm_compute; reflexivity|]. reflexivity.
Qed.
Print Assumptions C40_refuted_same_time_twice.
Example C40_case :
  let v := bw_delta (mini_video 1 1 (map (fun t => mini_rec t 0 0) [0; 10; 10; 30]) [] 3) 5 in
  sorted (map r_time (b_rec v)) /\ (b_cur v < length (b_rec v))%nat /\
  nth (b_cur v) (map r_time (b_rec v)) 0 - b_delta v <> 12 /\
  exists v', set_current_time v 12 = Ok v' /\ b_cur v' = 2%nat /\ b_time v' = 12.
Proof.
  cbn zeta. split; [|split; [cbn; lia|split; [cbn; lia|]]].
  - intros i j Hij. cbn in Hij. assert (i = 0 \/ i = 1 \/ i = 2 \/ i = 3)%nat as [|[|[|]]] by lia;
      assert (j = 0 \/ j = 1 \/ j = 2 \/ j = 3)%nat as [|[|[|]]] by lia; subst; cbn; lia.
  - eexists. split; [vm_compute; reflexivity|]. split; reflexivity.
Qed.

(** ** C49 *)

(** [useful v k]: event [k] changed the player's knowledge of the board (useful_level 2 or 3). *)
Definition useful (v : bv) (k : nat) : Prop :=
  exists r, nth_error (b_rec v) k = Some r /\ (2 <= r_useful r)%nat.

(** What the call does, for every video and current event. It crashes exactly when the current event
    is event 0 and that event is not useful; when no event up to the current one is useful, or only
    event 0, the uniform matrix comes back with width rows and height columns; otherwise the
    probabilities of the current position are returned. *)
Theorem C49_every_answer : forall v, (b_cur v < length (b_rec v))%nat ->
  (forall r, In r (b_rec v) -> (r_next r < length (b_stream v))%nat) ->
  (b_cur v = 0%nat /\ ~ useful v 0 /\ get_game_board_poss v = Panic) \/
  ((0 < b_cur v)%nat /\ (forall k, (1 <= k <= b_cur v)%nat -> ~ useful v k) /\
     get_game_board_poss v = Ok (Flat (v_width (b_meta v)) (v_height (b_meta v)))) \/
  (exists k r, (k <= b_cur v)%nat /\ useful v k /\ nth_error (b_rec v) (b_cur v) = Some r /\
     get_game_board_poss v = Ok (PossOf (r_next r))).
Proof.
  intros v Hc Hst.
  assert (Hloop : forall id, (id < length (b_rec v))%nat ->
    (id = 0%nat /\ ~ useful v 0 /\ poss_loop v id = Panic) \/
    ((0 < id)%nat /\ (forall k, (1 <= k <= id)%nat -> ~ useful v k) /\ poss_loop v id = Ok None) \/
    (exists k, (k <= id)%nat /\ useful v k /\ poss_loop v id = Ok (Some k))).
  { induction id as [|id IH]; intros Hid.
    - cbn [poss_loop]. destruct (nth_error (b_rec v) 0) as [r|] eqn:E; [|apply nth_error_None in E; lia].
      unfold vget. rewrite E. cbn [bind]. destruct (r_useful r <? 2)%nat eqn:E2.
      + left. split; auto. split; auto. intros (r' & E' & H). rewrite E in E'. injection E' as <-. lia.
      + right. right. exists 0%nat. split; auto. split; [exists r; split; auto; lia|auto].
    - cbn [poss_loop]. destruct (nth_error (b_rec v) (S id)) as [r|] eqn:E; [|apply nth_error_None in E; lia].
      unfold vget. rewrite E. cbn [bind]. destruct (r_useful r <? 2)%nat eqn:E2.
      + assert (Hn : ~ useful v (S id)).
        { intros (r' & E' & H). rewrite E in E'. injection E' as <-. lia. }
        destruct id as [|id'].
        * right. left. split; [lia|]. split; auto. intros k Hk. replace k with 1%nat by lia. auto.
        * destruct IH as [(A & _)|[(A & B & C)|(k & A & B & C)]]; [lia|discriminate| |].
          -- right. left. split; [lia|]. split; auto. intros k Hk.
             destruct (Nat.eq_dec k (S (S id'))) as [->|]; auto. apply B. lia.
          -- right. right. exists k. split; auto.
      + right. right. exists (S id). split; auto. split; [exists r; split; auto; lia|auto]. }
  unfold get_game_board_poss. destruct (Hloop (b_cur v) Hc) as [(A & B & C)|[(A & B & C)|(k & A & B & C)]];
    rewrite C; cbn [bind].
  - left. auto.
  - right. left. auto.
  - right. right. destruct (nth_error (b_rec v) (b_cur v)) as [r|] eqn:E; [|apply nth_error_None in E; lia].
    exists k, r. split; auto. split; auto. split; auto. unfold vget at 1. rewrite E. cbn [bind].
    specialize (Hst r (nth_error_In _ _ E)).
    unfold vget. destruct (nth_error (b_stream v) (r_next r)) eqn:E3; [reflexivity|].
    apply nth_error_None in E3. lia.
Qed.
Print Assumptions C49_every_answer.

(** The property fails in both respects: the matrix is transposed, and event 0 crashes. *)
Theorem C49_refuted :
  (let v := mini_video 8 30 [mini_rec 0 0 0; mini_rec 1 1 0] [gboard_new 10] 1 in
   get_game_board_poss v = Ok (Flat 30 8) /\ v_height (b_meta v) = 8%nat /\ v_width (b_meta v) = 30%nat) /\
  (let v := mini_video 8 30 [mini_rec 0 0 0; mini_rec 1 1 0] [gboard_new 10] 0 in
   get_game_board_poss v = Panic).
Proof. split; vm_compute; auto. Qed.
Print Assumptions C49_refuted.
Example C49_case :
  get_game_board_poss (mini_video 8 30 [mini_rec 0 0 0; mini_rec 1 2 1; mini_rec 2 0 1]
     [gboard_new 10; gboard_new 10] 2) = Ok (PossOf 1).
Proof. vm_compute. reflexivity. Qed.
