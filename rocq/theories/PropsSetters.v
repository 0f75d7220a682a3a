(** * C41: which calls may write or read the metadata of a recording, and when. *)
From Verif Require Import Base Spec BaseFacts LayMine MineBoard BoardCache Evf BaseVideo PropsGame.
Open Scope Z_scope.

(** ** The vocabulary *)

(** The game has ended (with a win or a loss). *)
Definition over (st : game_state) : Prop := st = Win \/ st = Loss.
(** The game has ended or the object is a recorded video. *)
Definition over_or_shown (st : game_state) : Prop := over st \/ st = Display.

(** When a setter is allowed. *)
Definition allowed (v : bv) (c : setter) : Prop :=
  match c with
  | SetPixSize _ | SetSoftware _ => over (b_state v) \/ b_state v = Ready
  | SetRtime _ => b_allow_rtime v = true
  | _ => over (b_state v)
  end.

(** The metadata fields, the value of each, which one a setter writes and with what. *)
Inductive field : Type :=
| FPix | FRtime | FOffical | FFair | FMode | FSoftware | FPlayer | FRace | FUniq | FStart | FEnd
| FCountry | FUuid | FChecksum | FCompleted | FLevel | FMines | FBbbv | FHeight | FWidth.
Inductive value : Type := IsZ (z : Z) | IsB (b : bool) | IsL (l : list Z) | IsN (n : nat).
Definition read (f : field) (v : bv) : value :=
  let m := b_meta v in
  match f with
  | FPix => IsZ (v_pix m) | FRtime => IsZ (v_rtime_ms m) | FOffical => IsB (v_offical m)
  | FFair => IsB (v_fair m) | FMode => IsZ (v_mode m) | FSoftware => IsL (v_software m)
  | FPlayer => IsL (v_player m) | FRace => IsL (v_race m) | FUniq => IsL (v_uniq m)
  | FStart => IsL (v_start m) | FEnd => IsL (v_end m) | FCountry => IsL (v_country m)
  | FUuid => IsL (v_uuid m) | FChecksum => IsL (v_checksum m) | FCompleted => IsB (v_completed m)
  | FLevel => IsZ (v_level m) | FMines => IsZ (v_mine_num m) | FBbbv => IsZ (v_bbbv m)
  | FHeight => IsN (v_height m) | FWidth => IsN (v_width m)
  end.
Definition target (c : setter) : field * value :=
  match c with
  | SetPixSize x => (FPix, IsZ x) | SetRtime x => (FRtime, IsZ x) | SetOffical x => (FOffical, IsB x)
  | SetFair x => (FFair, IsB x) | SetMode x => (FMode, IsZ x) | SetSoftware x => (FSoftware, IsL x)
  | SetPlayer x => (FPlayer, IsL x) | SetRace x => (FRace, IsL x) | SetUniq x => (FUniq, IsL x)
  | SetStart x => (FStart, IsL x) | SetEnd x => (FEnd, IsL x) | SetCountry x => (FCountry, IsL x)
  | SetUuid x => (FUuid, IsL x)
  end.
(** The rest of the object. *)
Definition rest (v : bv) :=
  (v_board (b_meta v), b_mb v, b_state v, b_rec v, b_stream v, b_raw v, b_has v, b_cur v, b_time v).

Theorem C41_setters : forall v c,
  (allowed v c ->
     snd (bv_set v c) = Some 0%nat /\ rest (fst (bv_set v c)) = rest v /\
     read (fst (target c)) (fst (bv_set v c)) = snd (target c) /\
     forall f, f <> fst (target c) -> read f (fst (bv_set v c)) = read f v) /\
  (~ allowed v c -> bv_set v c = (v, None)).
Proof.
  intros v c. unfold allowed, over. split.
  - intros H.
    assert (E : snd (bv_set v c) = Some 0%nat /\ rest (fst (bv_set v c)) = rest v /\
       read (fst (target c)) (fst (bv_set v c)) = snd (target c) /\
       forall f, f <> fst (target c) -> read f (fst (bv_set v c)) = read f v).
    { destruct c; cbn [bv_set]; unfold put;
      try (destruct H as [H|H]; [destruct H as [H|H]|]; rewrite H);
      try (destruct H as [H|H]; rewrite H); try (rewrite H);
      cbn [is_over is_state negb andb fst snd target];
      (split; [reflexivity|split; [reflexivity|split; [reflexivity|]]]);
      intros f Hf; destruct f; try reflexivity; congruence. }
    exact E.
  - intros H. destruct c; cbn [bv_set]; unfold put;
      try (destruct (b_allow_rtime v); [exfalso; auto|reflexivity]);
      destruct (b_state v) eqn:E; cbn [is_over is_state negb andb]; try reflexivity; exfalso; auto.
Qed.
Print Assumptions C41_setters.

(** [set_checksum]: allowed after the game only. *)
Theorem C41_checksum : forall v c,
  (~ over (b_state v) -> bv_set_checksum v c = Ok (v, None)) /\
  (over (b_state v) -> forall v' o, bv_set_checksum v c = Ok (v', o) ->
     o = Some 0%nat /\ (forall f, f <> FChecksum -> read f v' = read f v) /\
     b_rec v' = b_rec v /\ b_state v' = b_state v /\ b_mb v' = b_mb v).
Proof.
  intros v c. unfold over. split.
  - intros H. unfold bv_set_checksum, set_checksum, saver_of. cbn [sv_state].
    assert (E : is_over (b_state v) = false) by (destruct (b_state v); cbn; auto; exfalso; auto).
    rewrite E. cbn [negb bind sv_video sv_raw sv_has]. unfold saved_video, on_meta, w_checksum.
    destruct v as [[] ? ? ? ? ? ? ? ? ? ? ? ? ? ? ? ?]. reflexivity.
  - intros H v' o E. unfold bv_set_checksum in E. apply bind_ok in E as ([s o'] & E1 & E). injection E as <- <-.
    unfold set_checksum, saver_of in E1. cbn [sv_state] in E1.
    assert (Eo : is_over (b_state v) = true) by (destruct H as [-> | ->]; reflexivity).
    rewrite Eo in E1. cbn [negb] in E1. split.
    + cbn [sv_has sv_raw] in E1. destruct (b_has v); cbn [negb] in E1.
      * destruct (length (b_raw v) <? 32)%nat; [discriminate|]. apply bind_ok in E1 as (raw & _ & E1). now injection E1 as _ <-.
      * destruct (length (b_raw v) =? 0)%nat; [discriminate|]. now injection E1 as _ <-.
    + split; [|cbn; auto]. intros f Hf. destruct f; try reflexivity. congruence.
Qed.
Print Assumptions C41_checksum.

(** [set_board]: only before or during a game, and only with a board of the same size. *)
Theorem C41_set_board : forall v b v' o, set_board v b = Ok (v', o) ->
  (o = Some 0%nat <->
     ~ over_or_shown (b_state v) /\
     length b = v_height (b_meta v) /\ (forall r, nth_error b 0 = Some r -> length r = v_width (b_meta v))) /\
  (o = None -> v' = v) /\
  (o = Some 0%nat -> v_board (b_meta v') = b /\ m_board (b_mb v') = b /\
     v_height (b_meta v') = v_height (b_meta v) /\ v_width (b_meta v') = v_width (b_meta v) /\
     m_gb (b_mb v') = m_gb (b_mb v) /\ b_state v' = b_state v /\ b_rec v' = b_rec v /\
     v_mine_num (b_meta v') = count_mines b).
Proof.
  intros v b v' o E. unfold set_board in E. destruct b as [|r0 b]; [discriminate|].
  assert (Hb : b_state v = Playing \/ b_state v = Ready \/ b_state v = PreFlaging \/
               over_or_shown (b_state v)).
  { unfold over_or_shown, over. destruct (b_state v); auto 10. }
  assert (Hrun : b_state v = Playing \/ b_state v = Ready \/ b_state v = PreFlaging -> ~ over_or_shown (b_state v)).
  { unfold over_or_shown, over. intros [H|[H|H]]; rewrite H; intuition discriminate. }
  assert (Hr0 : forall w, (forall r, nth_error (r0 :: b) 0 = Some r -> length r = w) <-> length r0 = w).
  { intros w. cbn [nth_error]. split; [intros H; now apply H|intros H r Hr; now injection Hr as <-]. }
  rewrite Hr0.
  assert (Hgo : b_state v = Playing \/ b_state v = Ready \/ b_state v = PreFlaging ->
    (if negb (v_width (b_meta v) =? length r0)%nat || negb (v_height (b_meta v) =? length (r0 :: b))%nat
     then Ok (v, None) else Ok (v', o)) = Ok (v', o)).
  { intros [H|[H|H]]; rewrite H in E; destruct (negb _ || negb _); auto; exact E. }
  destruct Hb as [Hb|[Hb|[Hb|Hb]]].
  1,2,3: specialize (Hrun ltac:(rewrite Hb; auto)); rewrite Hb in E; clear Hgo;
    destruct (negb (v_width (b_meta v) =? length r0)%nat || negb (v_height (b_meta v) =? length (r0 :: b))%nat) eqn:Ed;
    injection E as <- <-;
    [split; [split; [discriminate|intros (_ & A & B); exfalso; lia]|]; split; [reflexivity|discriminate]
    |split; [split; [intros _; split; [exact Hrun|split; lia]|reflexivity]|]; split; [discriminate|];
     intros _; cbn [length] in Ed; cbn; repeat (split; [first [reflexivity|lia]|]); reflexivity].
  assert (E2 : Ok (v, @None nat) = Ok (v', o)).
  { destruct Hb as [[Hb|Hb]|Hb]; rewrite Hb in E; exact E. }
  injection E2 as <- <-. split; [split; [discriminate|intros (H & _); contradiction]|].
  split; [reflexivity|discriminate].
Qed.
Print Assumptions C41_set_board.

(** Getters: an error exactly outside their states. *)
Theorem C41_getters : forall v,
  (get_rtime_ms v = if is_over_or_display (b_state v) then Some (v_rtime_ms (b_meta v)) else None) /\
  (get_checksum (saver_of v) = None <-> ~ over_or_shown (b_state v)) /\
  (get_raw_data (saver_of v) = None <-> ~ over_or_shown (b_state v)) /\
  (get_rtime_ms v = None <-> ~ over_or_shown (b_state v)) /\
  (get_bbbv_solved v = Ok None <-> ~ over_or_shown (b_state v)) /\
  (get_ce v = Ok None <-> ~ over_or_shown (b_state v)) /\
  (get_pix_size v = None <-> b_state v <> Display) /\
  (get_video_start_time v = None <-> b_state v <> Display) /\
  (get_video_end_time v = Ok None <-> b_state v <> Display) /\
  (get_x_y v = Ok None <-> b_state v <> Display) /\
  (forall id v' o, set_current_event_id v id = Ok (v', o) ->
     (o = None <-> b_state v <> Display) /\ (o = None -> v' = v)).
Proof.
  intros v. unfold over_or_shown, over.
  assert (Hf : forall field, get_final v field = Ok None <-> ~ ((b_state v = Win \/ b_state v = Loss) \/ b_state v = Display)).
  { intros fl. unfold get_final. destruct (b_state v);
      try (split; [intros _; intuition discriminate|reflexivity]).
    - destruct (rev (b_rec v)); split; try discriminate; intros H; exfalso; auto.
    - destruct (rev (b_rec v)); split; try discriminate; intros H; exfalso; auto.
    - split; [|intros H; exfalso; auto]. unfold vget. destruct (nth_error _ _); discriminate. }
  split; [unfold get_rtime_ms; now destruct (b_state v)|].
  split; [unfold get_checksum, saver_of; cbn [sv_state sv_video]; destruct (b_state v); cbn; split; try discriminate; try reflexivity; intuition discriminate|].
  split; [unfold get_raw_data, saver_of; cbn [sv_state sv_raw]; destruct (b_state v); cbn; split; try discriminate; try reflexivity; intuition discriminate|].
  split; [unfold get_rtime_ms; destruct (b_state v); cbn; split; try discriminate; try reflexivity; intuition discriminate|].
  split; [apply Hf|]. split; [apply Hf|].
  split; [unfold get_pix_size; destruct (b_state v); split; try discriminate; try reflexivity; congruence|].
  split; [unfold get_video_start_time; destruct (b_state v); split; try discriminate; try reflexivity; congruence|].
  split.
  { unfold get_video_end_time; destruct (b_state v); try (split; [discriminate|reflexivity]).
    destruct (rev (b_rec v)); split; try discriminate; congruence. }
  split.
  { unfold get_x_y; destruct (b_state v); try (split; [discriminate|reflexivity]).
    split; [|congruence]. intros E. apply bind_ok in E as (w & _ & E). apply bind_ok in E as (q & _ & E). discriminate. }
  intros id v' o E. unfold set_current_event_id in E.
  destruct (b_state v) eqn:Hst; try (injection E as <- <-; split; [split; [discriminate|reflexivity]|reflexivity]).
  apply bind_ok in E as (r & _ & E). injection E as <- <-. split; [split; [discriminate|congruence]|discriminate].
Qed.
Print Assumptions C41_getters.

(** ** Over whole sessions: as long as the game has not ended nobody can change who is said to have
    played it, in which mode, and whether the result counts as official or fair. *)
Definition identity (v : bv) :=
  let m := b_meta v in
  (v_player m, v_race m, v_uniq m, v_country m, v_uuid m, v_mode m, v_offical m, v_fair m, v_checksum m).

Lemma static_identity v v' : cal_static_params v = Ok v' -> identity v' = identity v.
Proof.
  unfold cal_static_params. intros E. apply bind_ok in E as (? & _ & E). apply bind_ok in E as (? & _ & E).
  apply bind_ok in E as (? & _ & E). now injection E as <-.
Qed.
Lemma step_identity v now stamp e p v' o : bv_step v now stamp e p = Ok (v', o) -> identity v' = identity v.
Proof.
  unfold bv_step. intros E.
  assert (Hgo : forall r : R (bv * option nat),
    match m_state (b_mb v) with Loss | Win | Display => Ok (v, Some 0%nat) | _ => r end = Ok (v', o) ->
    r = Ok (v', o) \/ v' = v).
  { intros r H. destruct (m_state (b_mb v)); auto; injection H as <- <-; auto. }
  apply Hgo in E as [E|E]; [|now subst]. clear Hgo.
  apply bind_ok in E as (x & _ & E). apply bind_ok in E as (y & _ & E).
  apply bind_ok in E as ([m o1] & _ & E). destruct o1 as [a|]; [|now injection E as <- <-].
  set (v1 := bw_state (bw_mb v m) (m_state m)) in *.
  assert (H1 : identity v1 = identity v) by reflexivity. rewrite <- H1. clearbody v1. clear H1.
  assert (Hgo : forall r : R (bv * option nat),
    match m_state m with Ready => Ok (bw_rec (bw_stream v1 []) [], Some 0%nat) | _ => r end = Ok (v', o) ->
    r = Ok (v', o) \/ v' = bw_rec (bw_stream v1 []) []).
  { intros r H. destruct (m_state m); auto; injection H as <- <-; auto. }
  destruct (m_state m) eqn:Em.
  { injection E as <- <-. reflexivity. }
  all: clear Hgo; apply bind_ok in E as ([v2 tm] & E2 & E); apply bind_ok in E as ([v3 hops] & E3 & E);
    apply bind_ok in E as ([[v4 prior] next] & E4 & E); injection E as <- <-;
    change (identity v4 = identity v1);
    assert (H2 : identity v2 = identity v1)
      by (first [ apply bind_ok in E2 as (w & Ew & E2); injection E2 as <- <-; unfold end_game in Ew;
                  apply bind_ok in Ew as (? & _ & Ew); apply bind_ok in Ew as (? & _ & Ew);
                  apply static_identity in Ew; now rewrite Ew
                | destruct (m_state (b_mb v)); injection E2 as <- <-; reflexivity
                | injection E2 as <- <-; reflexivity ]);
    assert (H3 : identity v3 = identity v2)
      by (assert (Hx : v3 = v2 \/ exists g, v3 = bw_stream v2 (b_stream v2 ++ [g]));
          [destruct (m_state (b_mb v));
           try (destruct (length (b_stream v2) =? 0)%nat; injection E3 as <- <-; [right; eexists; reflexivity|left; reflexivity]);
           apply bind_ok in E3 as (? & _ & E3); injection E3 as <- <-; left; reflexivity
          |destruct Hx as [->|(g & ->)]; reflexivity]);
    assert (H4 : identity v4 = identity v3)
      by (destruct (1 <=? a)%nat; [apply bind_ok in E4 as (? & _ & E4)|]; apply bind_ok in E4 as (? & _ & E4);
          injection E4 as <- <- <-; reflexivity);
    congruence.
Qed.
Lemma vcall_identity v c v' : running (b_state v) -> vcall1 v c = Ok v' -> identity v' = identity v.
Proof.
  intros Hr E. assert (Hno : ~ over (b_state v)).
  { unfold over. destruct Hr as [H|[H|H]]; rewrite H; intuition discriminate. }
  destruct c; cbn [vcall1] in E.
  - apply bind_ok in E as ([v1 o] & E1 & E). injection E as <-. eapply step_identity; eauto.
  - apply bind_ok in E as ([v1 o] & E1 & E). injection E as <-. unfold set_board in E1. destruct b; [discriminate|].
    destruct Hr as [H|[H|H]]; rewrite H in E1; destruct (_ || _); injection E1 as <- <-; reflexivity.
  - injection E as <-. destruct c; try (rewrite (proj2 (C41_setters v _)); [reflexivity|exact Hno]).
    + destruct (C41_setters v (SetPixSize x)) as [A B]. cbn [bv_set]. destruct (_ && _); reflexivity.
    + cbn [bv_set]. destruct (negb _); reflexivity.
    + cbn [bv_set]. destruct (_ && _); reflexivity.
  - rewrite (proj1 (C41_checksum v c) Hno) in E. now injection E as <-.
  - apply bind_ok in E as (raw & _ & E). now injection E as <-.
  - unfold bv_reset in E. apply bind_ok in E as (m & _ & E). now injection E as <-.
  - injection E as <-. unfold win_then_flag_all_mine. now destruct (m_state _).
  - unfold loss_then_open_all_mine in E. destruct (m_state (b_mb v)); try (now injection E as <-).
    apply bind_ok in E as (g & _ & E). now injection E as <-.
Qed.
Theorem C41_identity_protected : forall cs v v', vexec v cs = Ok v' ->
  (forall pre c post u, cs = pre ++ c :: post -> vexec v pre = Ok u -> running (b_state u)) ->
  identity v' = identity v.
Proof.
  unfold vexec. induction cs as [|c cs IH]; intros v v' E Hrun; [now injection E as <-|].
  cbn [foldM] in E. apply bind_ok in E as (v1 & E1 & E).
  rewrite (IH v1 v' E).
  - eapply vcall_identity; eauto. apply (Hrun [] c cs v); reflexivity.
  - intros pre c' post u -> Eu. apply (Hrun (c :: pre) c' post u); auto. cbn [foldM]. now rewrite E1.
Qed.
Print Assumptions C41_identity_protected.

(** A session that tries everything too early, wins, then signs. *)
Definition sign_session : list vcall :=
  [VSet (SetPlayer [65]); VSet (SetSoftware [66]); VSet (SetFair true); VChecksum (repeat 7 32);
   VStep 1000000 [48] e_lc (0, 17)%nat; VSet (SetPlayer [65]); VStep 1050000 [49] e_lr (0, 17)%nat].
Example C41_case : exists v0 v1 v2,
  new_before_game demo_board 16 0 = Ok v0 /\ b_state v0 = Ready /\
  vexec v0 sign_session = Ok v1 /\ identity v1 = identity v0 /\ v_software (b_meta v1) = [66] /\
  b_state v1 = Playing /\
  vexec v1 [VStep 1100000 [49] e_mv (0, 9)%nat; VStep 1150000 [50] e_rr (0, 7)%nat;
            VStep 1200000 [50] e_lc (3, 4)%nat; VStep 1250000 [51] e_lr (3, 4)%nat;
            VSet (SetPlayer [65]); VSet (SetFair true); VGenerate; VChecksum (repeat 7 32)] = Ok v2 /\
  b_state v2 = Win /\ v_player (b_meta v2) = [65] /\ v_fair (b_meta v2) = true /\
  v_checksum (b_meta v2) = repeat 7 32 /\ v_rtime_ms (b_meta v2) = 200.
Proof.
  eexists. eexists. eexists. split; [vm_compute; reflexivity|]. split; [reflexivity|].
  split; [vm_compute; reflexivity|]. split; [reflexivity|]. split; [reflexivity|]. split; [reflexivity|].
  split; [vm_compute; reflexivity|]. vm_compute. auto 10.
Qed.
