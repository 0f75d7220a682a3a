(** * Properties of the evf codec: C20, C21, C22, C42, C55, C56. *)
From Verif Require Import Base Spec BaseFacts LayMine MineBoard Evf EvfSpec EvfProofs EvfSafe PropsUtils.
Open Scope Z_scope.

(** A 3 x 3 video used as the concrete case below. *)
Definition demo_video : video :=
  Video true false true 3 3 2 16 5 4 70000 [65; 98] [] [1] [] [50] [] [255] [7; 7]
        [[1; -1; 1]; [2; 2; 1]; [-1; 1; 0]] 6
        [VEv e_mv 0 1 2; VEv e_lc 70000 300 2; VEv e_lr 70001 300 2] (repeat 9 32).
Lemma demo_fits : fits demo_video /\ Forall event_known (v_events demo_video).
Proof.
  assert (Hl : legal_board 3 3 [[1; -1; 1]; [2; 2; 1]; [-1; 1; 0]]).
  { apply legal_boardb_ok. vm_compute. reflexivity. }
  unfold fits, byte, u16, u24, text, event_fits, u16, u24, event_known, nine_kinds.
  cbn [demo_video v_height v_width v_mine_num v_pix v_mode v_bbbv v_rtime_ms v_software v_player
       v_race v_uniq v_start v_end v_country v_uuid v_board v_events].
  split; [do 7 (split; [lia|])|].
  - split; [repeat constructor; lia|]. split; [|exact Hl].
    repeat (apply Forall_cons; [cbn [ve_ms ve_x ve_y]; lia|]). constructor.
  - repeat (apply Forall_cons; [cbn; tauto|]). constructor.
Qed.

(** ** C20 *)

(** The bytes written are the documented layout of the recorded data... *)
Theorem C20_generate_writes_format : forall v has_checksum, fits v ->
  generate_evf v has_checksum = Ok (evf_file v (if has_checksum then Some (v_checksum v) else None)).
Proof. exact generate_evf_ok. Qed.
Print Assumptions C20_generate_writes_format.

(** ... and reading them back gives the same data (level is recomputed, and the checksum reads as
    zeros when none was written), consuming the whole file. *)
Theorem C20_evf_round_trip : forall v (has_checksum : bool) raw,
  fits v -> (1 <= v_height v)%nat -> Forall (fun e => nine_kinds (ve_mouse e)) (v_events v) ->
  length (v_checksum v) = 32%nat ->
  generate_evf v has_checksum = Ok raw ->
  exists v', parse_video raw 0%nat = (Ok v', length raw) /\
    v_height v' = v_height v /\ v_width v' = v_width v /\ v_mine_num v' = v_mine_num v /\
    v_board v' = v_board v /\ v_events v' = v_events v /\
    v_completed v' = v_completed v /\ v_offical v' = v_offical v /\ v_fair v' = v_fair v /\
    v_pix v' = v_pix v /\ v_mode v' = v_mode v /\ v_bbbv v' = v_bbbv v /\
    v_rtime_ms v' = v_rtime_ms v /\
    v_software v' = v_software v /\ v_player v' = v_player v /\ v_race v' = v_race v /\
    v_uniq v' = v_uniq v /\ v_start v' = v_start v /\ v_end v' = v_end v /\
    v_country v' = v_country v /\ v_uuid v' = v_uuid v /\
    level_spec (v_height v) (v_width v) (v_mine_num v) (v_level v') /\
    v_checksum v' = if has_checksum then v_checksum v else repeat 0 32.
Proof.
  intros v hc raw Hf Hh He Hc Hg. rewrite generate_evf_ok in Hg by auto. inversion Hg; subst raw.
  exists (read_back v (if hc then Some (v_checksum v) else None)). split.
  - assert (Hr : reads parse_video (evf_file v (if hc then Some (v_checksum v) else None))
                   (read_back v (if hc then Some (v_checksum v) else None))).
    { apply parse_reads; auto.
      - eapply Forall_impl; [|exact He]. intros e H. left; exact H.
      - destruct hc; auto. }
    specialize (Hr [] []). rewrite app_nil_r in Hr. exact Hr.
  - cbn. do 20 (split; [reflexivity|]). split; [apply level_of_ok|]. destruct hc; reflexivity.
Qed.
Print Assumptions C20_evf_round_trip.

Example C20_evf_round_trip_case : exists raw,
  generate_evf demo_video true = Ok raw /\ length raw = 88%nat /\ fits demo_video /\
  (fst (parse_video raw 0%nat)) = Ok demo_video.
Proof.
  eexists. split; [vm_compute; reflexivity|]. split; [vm_compute; reflexivity|].
  split; [apply demo_fits|]. vm_compute. reflexivity.
Qed.

(** Outside the field widths: 256 rows are written as 0 rows, and a result of 2^24 ms or more (over
    4 h 39 min) makes saving panic. *)
Theorem C20_too_long_game_cannot_be_saved : forall v hc,
  16777216 <= v_rtime_ms v -> u16 (v_mine_num v) -> u16 (v_mode v) -> u16 (v_bbbv v) ->
  generate_evf v hc = Panic.
Proof.
  intros v hc Ht Hm Hmo Hb. unfold generate_evf.
  rewrite !push16_ok by auto. cbn [bind]. rewrite !push16_ok by auto. cbn [bind].
  rewrite !push16_ok by auto. cbn [bind].
  unfold push24 at 1. unfold u8_try at 1. rewrite Z.shiftr_div_pow2 by lia. change (2 ^ 16) with 65536.
  assert (256 <= v_rtime_ms v / 65536) by (apply Z.div_le_lower_bound; lia).
  replace ((0 <=? v_rtime_ms v / 65536) && (v_rtime_ms v / 65536 <? 256)) with false by lia.
  reflexivity.
Qed.
Print Assumptions C20_too_long_game_cannot_be_saved.

(** ** C21 *)
Theorem C21_evf_parser_total_partial : forall raw, bytes raw ->
  match fst (parse_video raw 0%nat) with
  | Ok v => fits v /\ (1 <= v_height v)%nat /\ length (v_checksum v) = 32%nat /\
            level_spec (v_height v) (v_width v) (v_mine_num v) (v_level v)
  | Err e => e = FileIsTooShort
  | Panic => nth_error raw 2 = Some 0      (* the file says the board has height 0 *)
  | OutOfFuel => False
  end.
Proof.
  intros raw Hb. pose proof (parse_yields Hb) as H. unfold outcome, parsed in H.
  destruct (fst (parse_video raw 0%nat)); auto.
  destruct H as (H1 & H2 & _ & H3 & H4 & _). rewrite H3. auto using level_of_ok.
Qed.
Print Assumptions C21_evf_parser_total_partial.

(** The full property fails: a file that claims height 0 makes the parser panic. *)
Theorem C21_refuted_height_zero : bytes (repeat 0 22) /\
  fst (parse_video (repeat 0 22) 0%nat) = Panic.
Proof.
  split; [|vm_compute; reflexivity]. apply Forall_forall. intros x Hx. apply repeat_spec in Hx.
  subst; unfold byte; lia.
Qed.
Print Assumptions C21_refuted_height_zero.

Example C21_case : fst (parse_video (repeat 1 40) 0%nat) = Err FileIsTooShort /\
  exists v, fst (parse_video ([0; 160; 2; 3; 0; 1; 16; 0; 0; 0; 3; 0; 1; 44; 0; 0; 0; 0; 0; 0; 0; 0; 64;
                               42; 0; 0; 9; 0; 1; 0; 2; 255; 17; 17]) 0%nat) = Ok v /\
            v_board v = [[1; -1; 1]; [1; 1; 1]] /\ v_events v = [VEv e_other 9 1 2].
Proof.
  split; [vm_compute; reflexivity|]. eexists. split; [vm_compute; reflexivity|].
  split; vm_compute; reflexivity.
Qed.

(** ** C22 *)

(** [n]-byte big-endian value of a list of bytes. *)
Definition big_endian (l : list Z) : Z := fold_left (fun acc b => acc * 256 + b) l 0.

Definition reader_spec (n : nat) (p : P Z) : Prop := forall raw o, bytes raw ->
  ((o + n <= length raw)%nat ->
     p raw o = (Ok (big_endian (firstn n (skipn o raw))), (o + n)%nat)) /\
  ((length raw < o + n)%nat -> fst (p raw o) = Err FileIsTooShort).

Lemma nth_error_byte raw o x : bytes raw -> nth_error raw o = Some x -> byte x.
Proof. intros Hb E. eapply Forall_forall; [exact Hb|]. eapply nth_error_In; eauto. Qed.

Lemma nth_error_lt raw o (x : Z) : nth_error raw o = Some x -> (o < length raw)%nat.
Proof. intros E. apply nth_error_Some. congruence. Qed.

Lemma nth_error_skip {raw o} (x : Z) : nth_error raw o = Some x -> skipn o raw = x :: skipn (S o) raw.
Proof.
  intros E. rewrite (skipn_nth_cons 0) by (eapply nth_error_lt; eauto). f_equal.
  erewrite nth_error_nth by eauto. reflexivity.
Qed.

Theorem C22_big_endian_readers :
  reader_spec 1 get_u8 /\ reader_spec 2 get_u16 /\ reader_spec 3 get_u24 /\ reader_spec 4 get_u32 /\
  reader_spec 1 get_char.
Proof.
  assert (H1 : reader_spec 1 get_u8).
  { intros raw o Hb. unfold get_u8. destruct (nth_error raw o) eqn:E.
    - split; intros H; [|pose proof (nth_error_lt E); lia].
      rewrite (nth_error_skip E). simpl. f_equal. lia.
    - apply nth_error_None in E. split; intros; [lia|reflexivity]. }
  split; [exact H1|]. split; [|split; [|split; [|exact H1]]];
    intros raw o Hb; unfold get_u16, get_u24, get_u32, pbind, pret, get_u8;
    repeat match goal with |- context [nth_error raw ?o] =>
      let E := fresh "E" in destruct (nth_error raw o) eqn:E;
        [pose proof (nth_error_byte Hb E); pose proof (nth_error_lt E)
        |apply nth_error_None in E; split; intros; [lia|reflexivity]] end;
    (split; intros; [|lia]).
  - rewrite lor16, (nth_error_skip E), (nth_error_skip E0) by auto. unfold big_endian; simpl.
    f_equal; lia.
  - rewrite lor24, (nth_error_skip E), (nth_error_skip E0), (nth_error_skip E1) by auto.
    unfold big_endian; simpl. f_equal; [f_equal|]; lia.
  - rewrite lor32, (nth_error_skip E), (nth_error_skip E0), (nth_error_skip E1), (nth_error_skip E2) by auto.
    unfold big_endian; simpl. f_equal; [f_equal|]; lia.
Qed.
Print Assumptions C22_big_endian_readers.
Example C22_case : get_u24 [9; 1; 2; 3] 1%nat = (Ok 66051, 4%nat) /\
  fst (get_u32 [9; 1; 2; 3] 1%nat) = Err FileIsTooShort.
Proof. split; vm_compute; reflexivity. Qed.

(** ** C55: a truncated file is always reported *)
Theorem C55_truncated_file_detected : forall v (has_checksum : bool) raw n,
  fits v -> (1 <= v_height v)%nat -> Forall (fun e => nine_kinds (ve_mouse e)) (v_events v) ->
  length (v_checksum v) = 32%nat -> bytes (v_checksum v) ->
  generate_evf v has_checksum = Ok raw -> (n < length raw)%nat ->
  fst (parse_video (firstn n raw) 0%nat) = Err FileIsTooShort.
Proof.
  intros v hc raw n Hf Hh He Hc Hcb Hg Hn.
  destruct (C20_evf_round_trip Hf Hh He Hc Hg) as (v' & Hp & _).
  assert (Hraw : bytes raw).
  { rewrite generate_evf_ok in Hg by auto. inversion Hg. clear -Hf Hcb.
    apply evf_file_bytes; auto. destruct hc; auto. }
  assert (Hfn : bytes (firstn n raw)).
  { apply Forall_forall. intros x Hx. eapply Forall_forall; [exact Hraw|].
    eapply firstn_In_sub; eauto. }
  pose proof (parse_yields Hfn) as Hy.
  destruct (parse_video (firstn n raw) 0%nat) as [[x|e| |] o'] eqn:E; cbn [fst outcome] in *.
  - destruct (local_parse (skipn n raw) E) as [H1 H2]; [lia|].
    rewrite firstn_skipn, Hp in H2. inversion H2; subst.
    rewrite firstn_length in H1. lia.
  - now subst.
  - exfalso. rewrite generate_evf_ok in Hg by auto. inversion Hg as [Hg'].
    assert (H2 : nth_error raw 2 = Some (Z.of_nat (v_height v))).
    { rewrite <- Hg'. reflexivity. }
    assert (H3 : nth_error raw 2 = Some 0).
    { rewrite <- (firstn_skipn n raw), nth_error_app1; [exact Hy|]. apply nth_error_Some. congruence. }
    rewrite H2 in H3. inversion H3. lia.
  - contradiction.
Qed.
Print Assumptions C55_truncated_file_detected.

(** ** C56: saving a loaded video *)
Theorem C56_resave_loaded_video : forall raw v o, bytes raw -> parse_video raw 0%nat = (Ok v, o) ->
  exists raw2, generate_evf v false = Ok raw2 /\
    parse_video raw2 0%nat = (Ok (w_checksum v (repeat 0 32)), length raw2).
Proof.
  intros raw v o Hb Hp. pose proof (parse_yields Hb) as Hy. rewrite Hp in Hy. cbn [fst outcome] in Hy.
  destruct Hy as (Hf & Hh & Hk & Hlv & _ & _).
  exists (evf_file v None). split; [exact (generate_evf_ok false Hf)|].
  pose proof (@parse_reads v None Hf Hh Hk I [] []) as Hr. rewrite app_nil_r in Hr.
  cbn [app length plus] in Hr. rewrite Hr. unfold read_back, w_checksum. rewrite Hlv. reflexivity.
Qed.
Print Assumptions C56_resave_loaded_video.

(** ** C42 *)
Definition finished (s : saver) : Prop := sv_state s = Win \/ sv_state s = Loss.

(** Outside Win and Loss nothing happens and an error is returned. *)
Theorem C42_only_after_the_game : forall s c, ~ finished s -> set_checksum s c = Ok (s, None).
Proof.
  intros s c H. unfold set_checksum, finished in *. destruct (sv_state s); simpl; tauto.
Qed.
Print Assumptions C42_only_after_the_game.

(** The first checksum of a freshly encoded video: the bytes become those of the video with that
    checksum, so the parser reads it back. *)
Theorem C42_first_checksum : forall s c s1,
  finished s -> fits (sv_video s) -> sv_has s = false -> length c = 32%nat ->
  sv_generate s = Ok s1 ->
  exists s2, set_checksum s1 c = Ok (s2, Some 0%nat) /\
    sv_raw s2 = evf_file (sv_video s) (Some c) /\ get_checksum s2 = Some c /\
    sv_video s2 = w_checksum (sv_video s) c /\ sv_state s2 = sv_state s.
Proof.
  intros s c s1 Hs Hf Hh Hc Hg. unfold sv_generate in Hg. rewrite generate_evf_ok in Hg by auto.
  rewrite Hh in Hg. cbn [bind] in Hg. inversion Hg; subst s1. clear Hg.
  unfold set_checksum. cbn [sv_state sv_has sv_raw sv_video].
  replace (is_over (sv_state s)) with true by (destruct Hs as [-> | ->]; reflexivity). cbn [negb].
  unfold evf_file at 1. rewrite app_length. cbn [length].
  replace (length (evf_body (sv_video s)) + 1 =? 0)%nat with false by lia.
  eexists. split; [reflexivity|]. cbn [sv_raw sv_video sv_state get_checksum].
  split; [|split; [|auto]].
  - unfold evf_file. rewrite app_length. cbn [length].
    replace (length (evf_body (sv_video s)) + 1 - 1)%nat with (length (evf_body (sv_video s))) by lia.
    rewrite upd_nth_app_r, <- app_assoc. reflexivity.
  - unfold get_checksum. cbn [sv_state sv_video].
    replace (is_over_or_display (sv_state s)) with true by (destruct Hs as [-> | ->]; reflexivity).
    reflexivity.
Qed.
Print Assumptions C42_first_checksum.

(** Every later call replaces the last 32 bytes of the raw data by the new checksum and nothing
    else. *)
Theorem C42_later_checksums : forall s body c0 c,
  finished s -> sv_has s = true -> sv_raw s = body ++ c0 -> length c0 = 32%nat -> length c = 32%nat ->
  set_checksum s c = Ok (Saver (sv_state s) (sv_video s) (body ++ c) true, Some 0%nat).
Proof.
  intros s body c0 c Hs Hh Hraw H0 Hc. unfold set_checksum.
  replace (is_over (sv_state s)) with true by (destruct Hs as [-> | ->]; reflexivity). cbn [negb].
  rewrite Hh. cbn [negb]. rewrite Hraw, app_length.
  replace (length body + length c0 <? 32)%nat with false by lia.
  replace (length body + length c0 - 32)%nat with (length body) by lia.
  rewrite overwrite_ok by auto. reflexivity.
Qed.
Print Assumptions C42_later_checksums.

(** The full property fails for the second checksum: the bytes carry it, but [get_checksum] and any
    later [generate_evf_v0_raw_data] still use the first one. *)
Theorem C42_refuted_second_checksum : exists s0 s1 s2 s3 s4 : saver,
  finished s0 /\ fits (sv_video s0) /\ sv_has s0 = false /\
  sv_generate s0 = Ok s1 /\
  set_checksum s1 (repeat 5 32) = Ok (s2, Some 0%nat) /\
  set_checksum s2 (repeat 6 32) = Ok (s3, Some 0%nat) /\
  sv_raw s3 = evf_file (sv_video s0) (Some (repeat 6 32)) /\
  get_checksum s3 = Some (repeat 5 32) /\
  sv_generate s3 = Ok s4 /\ sv_raw s4 = evf_file (sv_video s0) (Some (repeat 5 32)).
Proof.
  exists (Saver Win demo_video [] false).
  do 4 eexists. split; [left; reflexivity|]. split; [apply demo_fits|].
  split; [reflexivity|].
  split; [vm_compute; reflexivity|]. split; [vm_compute; reflexivity|].
  split; [vm_compute; reflexivity|]. split; [vm_compute; reflexivity|].
  split; [vm_compute; reflexivity|]. split; [vm_compute; reflexivity|]. vm_compute; reflexivity.
Qed.
Print Assumptions C42_refuted_second_checksum.
