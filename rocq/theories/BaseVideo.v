(** * BaseVideo: model of [BaseVideo], base/src/videos/base_video.rs: recording a game with [step],
    replaying a recorded game with [analyse], the playback position, the gated setters and getters,
    choosing a file name and [is_valid].

    The generic parameter [T] is [Vec<Vec<i32>>]; with [SafeBoard] the same values are read (C23).
    Not modelled: the f64 statistics derived from the integers kept here (left_s, etime, stnb, ...),
    [nf], fps, hizi, comments, printing. The path length of an event is kept as the list of the
    displacements (dy, dx) whose euclidean lengths the code adds up. *)
From Verif Require Import Base LayMine Metrics Matrix Solve MineBoard BoardCache Evf.
Open Scope Z_scope.

(** base_video.rs 51-76 [VideoActionStateRecorder] with [KeyDynamicParams] (128-138; op_solved and
    isl_solved are always written 0 and are left out). r_useful = useful_level, r_prior/r_next =
    prior/next_game_board_id, r_hops = path (see above). *)
Record rec : Type := Rec {
  r_time : Z;
  r_mouse : event;
  r_x : Z;
  r_y : Z;
  r_useful : nat;
  r_prior : nat;
  r_next : nat;
  r_mstate : mouse_state;
  r_left : nat;
  r_right : nat;
  r_double : nat;
  r_ce : nat;
  r_flag : nat;
  r_solved : nat;
  r_hops : list (Z * Z)
}.

(** base_video.rs 78-95 [default] for everything but the four fields of an event in a file *)
Definition rec_of (e : vev) : rec :=
  Rec (ve_ms e) (ve_mouse e) (ve_x e) (ve_y e) 0 0 0 Undefined 0 0 0 0 0 0 [].
Definition ev_of (r : rec) : vev := VEv (r_mouse r) (r_time r) (r_x r) (r_y r).

(** base_video.rs 236-334 [BaseVideo]. [b_meta] holds the fields of [video] (Evf.v); its [v_events]
    is not used, the events are [b_rec] = video_action_state_recorder. b_video_start =
    video_start_instant (in microseconds of the monotonic clock), b_game_start = game_start_ms,
    b_delta = delta_time, b_time = current_time, b_cur = current_event_id, b_raw = raw_data,
    b_op/b_isl/b_cells = static_params, b_can = can_analyse, b_allow_rtime = allow_set_rtime,
    b_has = has_checksum. Times of a played game are whole milliseconds. *)
Record bv : Type := BV {
  b_meta : video;
  b_mb : mb;
  b_state : game_state;
  b_rec : list rec;
  b_stream : list gboard;
  b_video_start : Z;
  b_game_start : Z;
  b_delta : Z;
  b_time : Z;
  b_cur : nat;
  b_raw : list Z;
  b_op : nat;
  b_isl : nat;
  b_cells : list nat;
  b_can : bool;
  b_allow_rtime : bool;
  b_has : bool
}.

Definition vw_completed (v : video) (x : bool) : video :=
  Video x (v_offical v) (v_fair v) (v_height v) (v_width v) (v_mine_num v) (v_pix v) (v_mode v) (v_bbbv v) (v_rtime_ms v) (v_software v) (v_player v) (v_race v) (v_uniq v) (v_start v) (v_end v) (v_country v) (v_uuid v) (v_board v) (v_level v) (v_events v) (v_checksum v).
Definition vw_offical (v : video) (x : bool) : video :=
  Video (v_completed v) x (v_fair v) (v_height v) (v_width v) (v_mine_num v) (v_pix v) (v_mode v) (v_bbbv v) (v_rtime_ms v) (v_software v) (v_player v) (v_race v) (v_uniq v) (v_start v) (v_end v) (v_country v) (v_uuid v) (v_board v) (v_level v) (v_events v) (v_checksum v).
Definition vw_fair (v : video) (x : bool) : video :=
  Video (v_completed v) (v_offical v) x (v_height v) (v_width v) (v_mine_num v) (v_pix v) (v_mode v) (v_bbbv v) (v_rtime_ms v) (v_software v) (v_player v) (v_race v) (v_uniq v) (v_start v) (v_end v) (v_country v) (v_uuid v) (v_board v) (v_level v) (v_events v) (v_checksum v).
Definition vw_height (v : video) (x : nat) : video :=
  Video (v_completed v) (v_offical v) (v_fair v) x (v_width v) (v_mine_num v) (v_pix v) (v_mode v) (v_bbbv v) (v_rtime_ms v) (v_software v) (v_player v) (v_race v) (v_uniq v) (v_start v) (v_end v) (v_country v) (v_uuid v) (v_board v) (v_level v) (v_events v) (v_checksum v).
Definition vw_width (v : video) (x : nat) : video :=
  Video (v_completed v) (v_offical v) (v_fair v) (v_height v) x (v_mine_num v) (v_pix v) (v_mode v) (v_bbbv v) (v_rtime_ms v) (v_software v) (v_player v) (v_race v) (v_uniq v) (v_start v) (v_end v) (v_country v) (v_uuid v) (v_board v) (v_level v) (v_events v) (v_checksum v).
Definition vw_mine_num (v : video) (x : Z) : video :=
  Video (v_completed v) (v_offical v) (v_fair v) (v_height v) (v_width v) x (v_pix v) (v_mode v) (v_bbbv v) (v_rtime_ms v) (v_software v) (v_player v) (v_race v) (v_uniq v) (v_start v) (v_end v) (v_country v) (v_uuid v) (v_board v) (v_level v) (v_events v) (v_checksum v).
Definition vw_pix (v : video) (x : Z) : video :=
  Video (v_completed v) (v_offical v) (v_fair v) (v_height v) (v_width v) (v_mine_num v) x (v_mode v) (v_bbbv v) (v_rtime_ms v) (v_software v) (v_player v) (v_race v) (v_uniq v) (v_start v) (v_end v) (v_country v) (v_uuid v) (v_board v) (v_level v) (v_events v) (v_checksum v).
Definition vw_mode (v : video) (x : Z) : video :=
  Video (v_completed v) (v_offical v) (v_fair v) (v_height v) (v_width v) (v_mine_num v) (v_pix v) x (v_bbbv v) (v_rtime_ms v) (v_software v) (v_player v) (v_race v) (v_uniq v) (v_start v) (v_end v) (v_country v) (v_uuid v) (v_board v) (v_level v) (v_events v) (v_checksum v).
Definition vw_bbbv (v : video) (x : Z) : video :=
  Video (v_completed v) (v_offical v) (v_fair v) (v_height v) (v_width v) (v_mine_num v) (v_pix v) (v_mode v) x (v_rtime_ms v) (v_software v) (v_player v) (v_race v) (v_uniq v) (v_start v) (v_end v) (v_country v) (v_uuid v) (v_board v) (v_level v) (v_events v) (v_checksum v).
Definition vw_rtime_ms (v : video) (x : Z) : video :=
  Video (v_completed v) (v_offical v) (v_fair v) (v_height v) (v_width v) (v_mine_num v) (v_pix v) (v_mode v) (v_bbbv v) x (v_software v) (v_player v) (v_race v) (v_uniq v) (v_start v) (v_end v) (v_country v) (v_uuid v) (v_board v) (v_level v) (v_events v) (v_checksum v).
Definition vw_software (v : video) (x : list Z) : video :=
  Video (v_completed v) (v_offical v) (v_fair v) (v_height v) (v_width v) (v_mine_num v) (v_pix v) (v_mode v) (v_bbbv v) (v_rtime_ms v) x (v_player v) (v_race v) (v_uniq v) (v_start v) (v_end v) (v_country v) (v_uuid v) (v_board v) (v_level v) (v_events v) (v_checksum v).
Definition vw_player (v : video) (x : list Z) : video :=
  Video (v_completed v) (v_offical v) (v_fair v) (v_height v) (v_width v) (v_mine_num v) (v_pix v) (v_mode v) (v_bbbv v) (v_rtime_ms v) (v_software v) x (v_race v) (v_uniq v) (v_start v) (v_end v) (v_country v) (v_uuid v) (v_board v) (v_level v) (v_events v) (v_checksum v).
Definition vw_race (v : video) (x : list Z) : video :=
  Video (v_completed v) (v_offical v) (v_fair v) (v_height v) (v_width v) (v_mine_num v) (v_pix v) (v_mode v) (v_bbbv v) (v_rtime_ms v) (v_software v) (v_player v) x (v_uniq v) (v_start v) (v_end v) (v_country v) (v_uuid v) (v_board v) (v_level v) (v_events v) (v_checksum v).
Definition vw_uniq (v : video) (x : list Z) : video :=
  Video (v_completed v) (v_offical v) (v_fair v) (v_height v) (v_width v) (v_mine_num v) (v_pix v) (v_mode v) (v_bbbv v) (v_rtime_ms v) (v_software v) (v_player v) (v_race v) x (v_start v) (v_end v) (v_country v) (v_uuid v) (v_board v) (v_level v) (v_events v) (v_checksum v).
Definition vw_start (v : video) (x : list Z) : video :=
  Video (v_completed v) (v_offical v) (v_fair v) (v_height v) (v_width v) (v_mine_num v) (v_pix v) (v_mode v) (v_bbbv v) (v_rtime_ms v) (v_software v) (v_player v) (v_race v) (v_uniq v) x (v_end v) (v_country v) (v_uuid v) (v_board v) (v_level v) (v_events v) (v_checksum v).
Definition vw_end (v : video) (x : list Z) : video :=
  Video (v_completed v) (v_offical v) (v_fair v) (v_height v) (v_width v) (v_mine_num v) (v_pix v) (v_mode v) (v_bbbv v) (v_rtime_ms v) (v_software v) (v_player v) (v_race v) (v_uniq v) (v_start v) x (v_country v) (v_uuid v) (v_board v) (v_level v) (v_events v) (v_checksum v).
Definition vw_country (v : video) (x : list Z) : video :=
  Video (v_completed v) (v_offical v) (v_fair v) (v_height v) (v_width v) (v_mine_num v) (v_pix v) (v_mode v) (v_bbbv v) (v_rtime_ms v) (v_software v) (v_player v) (v_race v) (v_uniq v) (v_start v) (v_end v) x (v_uuid v) (v_board v) (v_level v) (v_events v) (v_checksum v).
Definition vw_uuid (v : video) (x : list Z) : video :=
  Video (v_completed v) (v_offical v) (v_fair v) (v_height v) (v_width v) (v_mine_num v) (v_pix v) (v_mode v) (v_bbbv v) (v_rtime_ms v) (v_software v) (v_player v) (v_race v) (v_uniq v) (v_start v) (v_end v) (v_country v) x (v_board v) (v_level v) (v_events v) (v_checksum v).
Definition vw_board (v : video) (x : board) : video :=
  Video (v_completed v) (v_offical v) (v_fair v) (v_height v) (v_width v) (v_mine_num v) (v_pix v) (v_mode v) (v_bbbv v) (v_rtime_ms v) (v_software v) (v_player v) (v_race v) (v_uniq v) (v_start v) (v_end v) (v_country v) (v_uuid v) x (v_level v) (v_events v) (v_checksum v).
Definition vw_level (v : video) (x : Z) : video :=
  Video (v_completed v) (v_offical v) (v_fair v) (v_height v) (v_width v) (v_mine_num v) (v_pix v) (v_mode v) (v_bbbv v) (v_rtime_ms v) (v_software v) (v_player v) (v_race v) (v_uniq v) (v_start v) (v_end v) (v_country v) (v_uuid v) (v_board v) x (v_events v) (v_checksum v).
Definition vw_events (v : video) (x : list vev) : video :=
  Video (v_completed v) (v_offical v) (v_fair v) (v_height v) (v_width v) (v_mine_num v) (v_pix v) (v_mode v) (v_bbbv v) (v_rtime_ms v) (v_software v) (v_player v) (v_race v) (v_uniq v) (v_start v) (v_end v) (v_country v) (v_uuid v) (v_board v) (v_level v) x (v_checksum v).
Definition bw_meta (v : bv) (x : video) : bv :=
  BV x (b_mb v) (b_state v) (b_rec v) (b_stream v) (b_video_start v) (b_game_start v) (b_delta v) (b_time v) (b_cur v) (b_raw v) (b_op v) (b_isl v) (b_cells v) (b_can v) (b_allow_rtime v) (b_has v).
Definition bw_mb (v : bv) (x : mb) : bv :=
  BV (b_meta v) x (b_state v) (b_rec v) (b_stream v) (b_video_start v) (b_game_start v) (b_delta v) (b_time v) (b_cur v) (b_raw v) (b_op v) (b_isl v) (b_cells v) (b_can v) (b_allow_rtime v) (b_has v).
Definition bw_state (v : bv) (x : game_state) : bv :=
  BV (b_meta v) (b_mb v) x (b_rec v) (b_stream v) (b_video_start v) (b_game_start v) (b_delta v) (b_time v) (b_cur v) (b_raw v) (b_op v) (b_isl v) (b_cells v) (b_can v) (b_allow_rtime v) (b_has v).
Definition bw_rec (v : bv) (x : list rec) : bv :=
  BV (b_meta v) (b_mb v) (b_state v) x (b_stream v) (b_video_start v) (b_game_start v) (b_delta v) (b_time v) (b_cur v) (b_raw v) (b_op v) (b_isl v) (b_cells v) (b_can v) (b_allow_rtime v) (b_has v).
Definition bw_stream (v : bv) (x : list gboard) : bv :=
  BV (b_meta v) (b_mb v) (b_state v) (b_rec v) x (b_video_start v) (b_game_start v) (b_delta v) (b_time v) (b_cur v) (b_raw v) (b_op v) (b_isl v) (b_cells v) (b_can v) (b_allow_rtime v) (b_has v).
Definition bw_video_start (v : bv) (x : Z) : bv :=
  BV (b_meta v) (b_mb v) (b_state v) (b_rec v) (b_stream v) x (b_game_start v) (b_delta v) (b_time v) (b_cur v) (b_raw v) (b_op v) (b_isl v) (b_cells v) (b_can v) (b_allow_rtime v) (b_has v).
Definition bw_game_start (v : bv) (x : Z) : bv :=
  BV (b_meta v) (b_mb v) (b_state v) (b_rec v) (b_stream v) (b_video_start v) x (b_delta v) (b_time v) (b_cur v) (b_raw v) (b_op v) (b_isl v) (b_cells v) (b_can v) (b_allow_rtime v) (b_has v).
Definition bw_delta (v : bv) (x : Z) : bv :=
  BV (b_meta v) (b_mb v) (b_state v) (b_rec v) (b_stream v) (b_video_start v) (b_game_start v) x (b_time v) (b_cur v) (b_raw v) (b_op v) (b_isl v) (b_cells v) (b_can v) (b_allow_rtime v) (b_has v).
Definition bw_time (v : bv) (x : Z) : bv :=
  BV (b_meta v) (b_mb v) (b_state v) (b_rec v) (b_stream v) (b_video_start v) (b_game_start v) (b_delta v) x (b_cur v) (b_raw v) (b_op v) (b_isl v) (b_cells v) (b_can v) (b_allow_rtime v) (b_has v).
Definition bw_cur (v : bv) (x : nat) : bv :=
  BV (b_meta v) (b_mb v) (b_state v) (b_rec v) (b_stream v) (b_video_start v) (b_game_start v) (b_delta v) (b_time v) x (b_raw v) (b_op v) (b_isl v) (b_cells v) (b_can v) (b_allow_rtime v) (b_has v).
Definition bw_raw (v : bv) (x : list Z) : bv :=
  BV (b_meta v) (b_mb v) (b_state v) (b_rec v) (b_stream v) (b_video_start v) (b_game_start v) (b_delta v) (b_time v) (b_cur v) x (b_op v) (b_isl v) (b_cells v) (b_can v) (b_allow_rtime v) (b_has v).
Definition bw_op (v : bv) (x : nat) : bv :=
  BV (b_meta v) (b_mb v) (b_state v) (b_rec v) (b_stream v) (b_video_start v) (b_game_start v) (b_delta v) (b_time v) (b_cur v) (b_raw v) x (b_isl v) (b_cells v) (b_can v) (b_allow_rtime v) (b_has v).
Definition bw_isl (v : bv) (x : nat) : bv :=
  BV (b_meta v) (b_mb v) (b_state v) (b_rec v) (b_stream v) (b_video_start v) (b_game_start v) (b_delta v) (b_time v) (b_cur v) (b_raw v) (b_op v) x (b_cells v) (b_can v) (b_allow_rtime v) (b_has v).
Definition bw_cells (v : bv) (x : list nat) : bv :=
  BV (b_meta v) (b_mb v) (b_state v) (b_rec v) (b_stream v) (b_video_start v) (b_game_start v) (b_delta v) (b_time v) (b_cur v) (b_raw v) (b_op v) (b_isl v) x (b_can v) (b_allow_rtime v) (b_has v).
Definition bw_can (v : bv) (x : bool) : bv :=
  BV (b_meta v) (b_mb v) (b_state v) (b_rec v) (b_stream v) (b_video_start v) (b_game_start v) (b_delta v) (b_time v) (b_cur v) (b_raw v) (b_op v) (b_isl v) (b_cells v) x (b_allow_rtime v) (b_has v).
Definition bw_allow_rtime (v : bv) (x : bool) : bv :=
  BV (b_meta v) (b_mb v) (b_state v) (b_rec v) (b_stream v) (b_video_start v) (b_game_start v) (b_delta v) (b_time v) (b_cur v) (b_raw v) (b_op v) (b_isl v) (b_cells v) (b_can v) x (b_has v).
Definition bw_has (v : bv) (x : bool) : bv :=
  BV (b_meta v) (b_mb v) (b_state v) (b_rec v) (b_stream v) (b_video_start v) (b_game_start v) (b_delta v) (b_time v) (b_cur v) (b_raw v) (b_op v) (b_isl v) (b_cells v) (b_can v) (b_allow_rtime v) x.
Definition on_meta (v : bv) (f : video -> video) : bv := bw_meta v (f (b_meta v)).

(** ** Creating *)

(** base_video.rs 336-383 [default] *)
Definition video_default : video :=
  Video false false false 0 0 0 16 0 0 0 [] [] [] [] [] [] [] [] [] 0 [] (repeat 0 32).
(** minesweeper_board.rs 66-87 [MinesweeperBoard::default] *)
Definition mb_default : mb := MB [] [] [] 0 0 0 0 0 0 0 0 UpUp Ready 0 0 0 false.

(** base_video.rs 656-661 and 732-737: the number of cells equal to -1 *)
Definition count_mines (b : board) : Z :=
  fold_left (fun y r => fold_left (fun yy x => if x =? -1 then yy + 1 else yy) r y) b 0.

(** base_video.rs 728-757 [new_before_game]; [now] is the clock at the call. *)
Definition new_before_game (b : board) (pix : Z) (now : Z) : R bv :=
  let* bbbv := cal_bbbv b in
  let mine_num := count_mines b in
  let* width := get_column b in
  let* m := mb_new b in
  let meta := vw_bbbv (vw_board (vw_pix (vw_mine_num (vw_height (vw_width video_default width)
                (get_row b)) mine_num) pix) b) (Z.of_nat bbbv) in
  Ok (BV meta m Ready [] [] now 0 0 0 0 [] 0 0 (repeat 0%nat 9) false false false).

(** base_video.rs 716-727 [new_with_file] followed by a successful [parse_video] (Evf.v), which
    yielded [f]. The state of a file video is Display. *)
Definition of_file (f : video) (raw : list Z) (now : Z) : bv :=
  BV (vw_events f []) mb_default Display (map rec_of (v_events f)) [] now 0 0 0 0 raw 0 0
     (repeat 0%nat 9) true false false.

(** base_video.rs 633-649 [reset] (and 431-445 for file videos). The clock fields, completion flag,
    checksum and has_checksum are not touched. *)
Definition bv_reset (v : bv) (row column : nat) (pix : Z) : R bv :=
  let* m := mb_new (mkboard row column 0) in
  let meta := vw_rtime_ms (vw_bbbv (vw_pix (vw_height (vw_width (b_meta v) column) row) pix) 0) 0 in
  Ok (BV meta m Ready [] [] (b_video_start v) (b_game_start v) (b_delta v) (b_time v)
         (b_cur v) [] 0 0 (repeat 0%nat 9) (b_can v) (b_allow_rtime v) (b_has v)).

(** base_video.rs 651-679 [set_board]; [assert!(!board.is_empty())]. *)
Definition set_board (v : bv) (b : board) : R (bv * option nat) :=
  match b with
  | [] => Panic
  | r0 :: _ =>
      match b_state v with
      | Playing | Ready | PreFlaging =>
          if negb (v_width (b_meta v) =? length r0)%nat || negb (v_height (b_meta v) =? length b)%nat
          then Ok (v, None)
          else
            let mine_num := count_mines b in
            let v := on_meta v (fun f => vw_mine_num f mine_num) in
            let v := on_meta v (fun f => vw_height f (length b)) in
            let v := on_meta v (fun f => vw_width f (length r0)) in
            let v := on_meta v (fun f => vw_level f (level_of (v_height f) (v_width f) mine_num)) in
            let v := on_meta v (fun f => vw_board f b) in
            let m := b_mb v in
            let m := MB b (m_gb m) (m_flaged m) (m_left m) (m_right m) (m_double m) (m_ce m)
                        (m_flag m) (m_solved m) (m_row m) (m_column m) (m_mouse m) (m_state m)
                        (m_px m) (m_py m) (m_preflag m) (m_mid m) in
            Ok (bw_mb v m, Some 0%nat)
      | Display | Win | Loss => Ok (v, None)
      end
  end.

(** ** Recording: [step] *)

(** miscellaneous.rs 15-17 [time_ms_between]: microseconds to the nearest millisecond, as u32.
    [duration_since] is zero when [past] is later; [as u32] saturates. (The f64 division by 1000
    rounds to the same integer for every u32 result.) *)
Definition time_ms_between (future past : Z) : Z :=
  Z.min 4294967295 ((Z.max 0 (future - past) + 500) / 1000).

(** [a / b] on usize: division by zero panics. *)
Definition udiv (a b : nat) : R nat := if (b =? 0)%nat then Panic else Ok (a / b)%nat.
(** [a - b] on u32. *)
Definition u32sub (a b : Z) : R Z := if b <=? a then Ok (a - b) else Panic.

(** base_video.rs 1018-1035 [cal_static_params] *)
Definition cal_static_params (v : bv) : R bv :=
  let* nums := cal_cell_nums (v_board (b_meta v)) in
  let* op := cal_op (v_board (b_meta v)) in
  let* isl := cal_isl (v_board (b_meta v)) in
  Ok (bw_isl (bw_op (bw_cells v nums) op) isl).

(** base_video.rs 833-868: a game that has just ended. [stamp] is the wall clock as text. *)
Definition end_game (v : bv) (won : bool) (time_ms : Z) (stamp : list Z) : R bv :=
  let* t_ms := u32sub time_ms (b_game_start v) in
  let v := on_meta v (fun f => vw_end f stamp) in
  let v := on_meta v (fun f => vw_completed f won) in
  let* bbbv := cal_bbbv (v_board (b_meta v)) in
  let v := on_meta v (fun f => vw_bbbv f (Z.of_nat bbbv)) in
  let v := on_meta v (fun f => vw_rtime_ms f t_ms) in
  cal_static_params v.

(** base_video.rs 874-893: from the newest event backwards to one inside the window; the events are
    given newest first. Running past the first event underflows. *)
Fixpoint last_inside (h w : Z) (rs : list rec) : R rec :=
  match rs with
  | [] => Panic
  | r :: rs' => if negb ((h <=? r_y r) || (w <=? r_x r)) then Ok r else last_inside h w rs'
  end.

(** The snapshot of the state machine that is stored with an event. *)
Definition snap (t : Z) (e : event) (x y : Z) (useful prior next : nat) (m : mb) (hops : list (Z * Z))
  : rec :=
  Rec t e x y useful prior next (m_mouse m) (m_left m) (m_right m) (m_double m) (m_ce m) (m_flag m)
      (m_solved m) hops.

(** base_video.rs 765-944 [step]. [p] is (pixels from the top, pixels from the left); [now] is the
    monotonic clock in microseconds and [stamp] the wall clock as text, both read during the call. *)
Definition bv_step (v : bv) (now : Z) (stamp : list Z) (e : event) (p : nat * nat)
  : R (bv * option nat) :=
  let time_ms := time_ms_between now (b_video_start v) in
  let old := m_state (b_mb v) in
  match old with
  | Loss | Win | Display => Ok (v, Some 0%nat)
  | _ =>
      let pix := Z.to_nat (v_pix (b_meta v)) in
      let* x := udiv (fst p) pix in
      let* y := udiv (snd p) pix in
      let* (m, o) := step (b_mb v) e (x, y) in
      let v := bw_mb v m in
      match o with
      | None => Ok (v, None)
      | Some a =>
          let v := bw_state v (m_state m) in
          match m_state m with
          | Ready => Ok (bw_rec (bw_stream v []) [], Some 0%nat)
          | st =>
              let* (v, time_ms) :=
                match st with
                | PreFlaging =>
                    match old with
                    | PreFlaging => Ok (v, time_ms)
                    | _ => Ok (bw_video_start v now, time_ms_between now now)
                    end
                | Playing =>
                    match old with
                    | Playing => Ok (v, time_ms)
                    | Ready =>
                        Ok (on_meta (bw_game_start (bw_video_start v now) (time_ms_between now now))
                                    (fun f => vw_start f stamp), time_ms_between now now)
                    | _ => Ok (on_meta (bw_game_start v time_ms) (fun f => vw_start f stamp), time_ms)
                    end
                | Loss => let* v := end_game v false time_ms stamp in Ok (v, time_ms)
                | Win => let* v := end_game v true time_ms stamp in Ok (v, time_ms)
                | _ => Ok (v, time_ms)
                end in
              let* (v, hops) :=
                match old with
                | Playing =>
                    let* r := last_inside (Z.of_nat (v_height (b_meta v)) * v_pix (b_meta v))
                                          (Z.of_nat (v_width (b_meta v)) * v_pix (b_meta v))
                                          (rev (b_rec v)) in
                    Ok (v, r_hops r ++ [(Z.of_nat (fst p) - r_y r, Z.of_nat (snd p) - r_x r)])
                | _ =>
                    if (length (b_stream v) =? 0)%nat then
                      let g := set_game_board (gboard_new (Z.to_nat (v_mine_num (b_meta v))))
                                 (mkboard (v_height (b_meta v)) (v_width (b_meta v)) 10) in
                      Ok (bw_stream v (b_stream v ++ [g]), [])
                    else Ok (v, [])
                end in
              let* (v, prior, next) :=
                (if (1 <=? a)%nat then
                   let g := set_game_board (gboard_new (Z.to_nat (v_mine_num (b_meta v)))) (m_gb m) in
                   let v := bw_stream v (b_stream v ++ [g]) in
                   let* next := usub (length (b_stream v)) 1 in
                   let* prior := usub (length (b_stream v)) 2 in
                   Ok (v, prior, next)
                 else
                   let* next := usub (length (b_stream v)) 1 in
                   Ok (v, next, next)) in
              let r := snap time_ms e (Z.of_nat (snd p) mod 65536) (Z.of_nat (fst p) mod 65536)
                            a prior next m hops in
              Ok (bw_rec v (b_rec v ++ [r]), Some 0%nat)
          end
      end
  end.

(** ** Replaying: [analyse] *)

(** [a as u16 * b as u16]: overflow panics. *)
Definition u16mul (a b : Z) : R Z :=
  let p := (a mod 65536) * (b mod 65536) in if p <? 65536 then Ok p else Panic.

(** base_video.rs 505-536: the path of event [ide], from the earlier events (newest first). The
    right-hand sides [height as u16 * pix as u16] of the two [&&] tests are computed on demand. *)
Definition outside (v : bv) (y x : Z) : R bool :=
  let* h := u16mul (Z.of_nat (v_height (b_meta v))) (v_pix (b_meta v)) in
  if h <=? y then
    let* w := u16mul (Z.of_nat (v_width (b_meta v))) (v_pix (b_meta v)) in
    Ok (w <=? x)
  else Ok false.
Fixpoint last_not_outside (v : bv) (rs : list rec) : R rec :=
  match rs with
  | [] => Panic
  | r :: rs' => let* out := outside v (r_y r) (r_x r) in
                if out then last_not_outside v rs' else Ok r
  end.
Definition analyse_hops (v : bv) (earlier : list rec) (r : rec) : R (list (Z * Z)) :=
  let* out := outside v (r_y r) (r_x r) in
  if out then
    match earlier with [] => Panic | r1 :: _ => Ok (r_hops r1) end
  else
    let* r1 := last_not_outside v earlier in
    Ok (r_hops r1 ++ [(r_y r - r_y r1, r_x r - r_x r1)]).

(** base_video.rs 459-537: one event; the state is (the video, whose [b_rec] holds the events already
    analysed, and the fresh state machine). [unwrap] of an [Err] panics. *)
Definition analyse_event (st : bv * mb) (r : rec) : R (bv * mb) :=
  let '(v, m) := st in
  let* prior := usub (length (b_stream v)) 1 in
  let* (v, m, u) :=
    match r_mouse r with
    | e_mv => Ok (v, m, r_useful r)
    | e =>
        let old := m_state m in
        let pix := Z.to_nat (v_pix (b_meta v)) in
        let* y := udiv (Z.to_nat (r_y r)) pix in
        let* x := udiv (Z.to_nat (r_x r)) pix in
        let* (m, o) := step m e (y, x) in
        match o with
        | None => Panic
        | Some u =>
            if (1 <=? u)%nat then
              let g := set_game_board (gboard_new (Z.to_nat (v_mine_num (b_meta v)))) (m_gb m) in
              let v := bw_stream v (b_stream v ++ [g]) in
              let v := match old with Playing => v | _ => bw_delta v (r_time r) end in
              Ok (v, m, u)
            else Ok (v, m, u)
        end
    end in
  let* next := usub (length (b_stream v)) 1 in
  let* hops := match m_state m with
               | Playing | Win | Loss => analyse_hops v (rev (b_rec v)) r
               | _ => Ok (r_hops r)
               end in
  Ok (bw_rec v (b_rec v ++ [snap (r_time r) (r_mouse r) (r_x r) (r_y r) u prior next m hops]), m).

(** base_video.rs 448-581 [analyse]. (The events are taken out of the video and put back one by one;
    the code works in place. Its f64 results are not modelled.) *)
Definition analyse (v : bv) : R bv :=
  if negb (b_can v) then Panic
  else
    let* m := mb_new (v_board (b_meta v)) in
    let g := set_game_board (gboard_new (Z.to_nat (v_mine_num (b_meta v))))
               (mkboard (v_height (b_meta v)) (v_width (b_meta v)) 10) in
    let v := bw_stream v (b_stream v ++ [g]) in
    let* (v, m) := foldM analyse_event (b_rec v) (bw_rec v [], m) in
    let v := on_meta v (fun f => vw_completed f match m_state m with Win => true | _ => false end) in
    cal_static_params v.

(** ** Playback *)

(** base_video.rs 1190-1206 [get_video_start_time], [get_video_end_time] *)
Definition get_video_start_time (v : bv) : option Z :=
  match b_state v with Display => Some (- b_delta v) | _ => None end.
Definition get_video_end_time (v : bv) : R (option Z) :=
  match b_state v with
  | Display => match rev (b_rec v) with
               | [] => Panic
               | r :: _ => Ok (Some (r_time r - b_delta v))
               end
  | _ => Ok None
  end.

(** base_video.rs 1219-1231: the forward loop; 1232-1244: the backward loop. [t] is [time] after
    [time += self.delta_time]. *)
Fixpoint seek_forward (fuel : nat) (ts : list Z) (t : Z) (cur : nat) : R nat :=
  match fuel with
  | O => OutOfFuel
  | S f =>
      let* last := usub (length ts) 1 in
      if (last <=? cur)%nat then Ok cur
      else
        let cur := S cur in
        let* tc := vget ts cur in
        if tc <=? t then seek_forward f ts t cur else Ok (cur - 1)%nat
  end.
Fixpoint seek_back (ts : list Z) (t : Z) (cur : nat) : R nat :=
  match cur with
  | O => Ok O
  | S c => let* tc := vget ts c in
           if t <? tc then seek_back ts t c else Ok c
  end.
Definition seek (ts : list Z) (t : Z) (cur : nat) : R nat :=
  let* tc := vget ts cur in
  if tc <? t then seek_forward (S (length ts)) ts t cur else seek_back ts t cur.

(** base_video.rs 1209-1247 [set_current_time]. The unit of time is arbitrary (with 2^-1074 s every
    finite f64 is an integer); the two f64 additions are exact here. *)
Definition set_current_time (v : bv) (time : Z) : R bv :=
  match get_video_start_time v with
  | None => Panic
  | Some start =>
      let cur_t := if time <? start then start else time in
      let* e := get_video_end_time v in
      match e with
      | None => Panic
      | Some en =>
          let cur_t := if en <? cur_t then en else cur_t in
          let* id := seek (map r_time (b_rec v)) (time + b_delta v) (b_cur v) in
          Ok (bw_cur (bw_time v cur_t) id)
      end
  end.

(** base_video.rs 1249-1256 [set_current_event_id] *)
Definition set_current_event_id (v : bv) (id : nat) : R (bv * option nat) :=
  match b_state v with
  | Display =>
      let v := bw_cur v id in
      let* r := vget (b_rec v) id in
      Ok (bw_time v (r_time r - b_delta v), Some 0%nat)
  | _ => Ok (v, None)
  end.

(** base_video.rs 1108-1117 [get_game_board] *)
Definition get_game_board (v : bv) : R board :=
  match b_state v with
  | Display =>
      let* r := vget (b_rec v) (b_cur v) in
      let* g := vget (b_stream v) (r_next r) in
      Ok (gb_board g)
  | _ => Ok (m_gb (b_mb v))
  end.

(** base_video.rs 1119-1140 [get_game_board_poss]: the answer is either the matrix
    [vec![vec![mine_num/(height*width); height]; width]] ([Flat rows columns]) or [get_poss] of a
    position of the stream ([PossOf id]). *)
Inductive poss : Type := Flat (rows columns : nat) | PossOf (id : nat).
Fixpoint poss_loop (v : bv) (id : nat) : R (option nat) :=
  let* r := vget (b_rec v) id in
  if (r_useful r <? 2)%nat then
    match id with
    | O => Panic
    | S O => Ok None
    | S id' => poss_loop v id'
    end
  else Ok (Some id).
Definition get_game_board_poss (v : bv) : R poss :=
  let* o := poss_loop v (b_cur v) in
  match o with
  | None => Ok (Flat (v_width (b_meta v)) (v_height (b_meta v)))
  | Some _ =>
      let* r := vget (b_rec v) (b_cur v) in
      let* _ := vget (b_stream v) (r_next r) in
      Ok (PossOf (r_next r))
  end.

(** base_video.rs 1719-1741 [get_x_y], for video_playing_pix_size_k = 1. *)
Fixpoint xy_loop (w : Z) (rs : list rec) (id : nat) : R (Z * Z) :=
  let* r := vget rs id in
  if r_x r <? w then Ok (r_x r, r_y r)
  else match id with O => Panic | S id' => xy_loop w rs id' end.
Definition get_x_y (v : bv) : R (option (Z * Z)) :=
  match b_state v with
  | Display =>
      let* w := u16mul (v_pix (b_meta v)) (Z.of_nat (v_width (b_meta v))) in
      let* q := xy_loop w (b_rec v) (b_cur v) in
      Ok (Some q)
  | _ => Ok None
  end.

(** ** Setters *)

(** The setters of base_video.rs 1096-1105 [set_pix_size], 1143-1151 [set_rtime], 1257-1357
    [set_is_offical] ... [set_device_uuid]. *)
Inductive setter : Type :=
| SetPixSize (x : Z) | SetRtime (ms : Z)
| SetOffical (x : bool) | SetFair (x : bool) | SetMode (x : Z) | SetSoftware (x : list Z)
| SetPlayer (x : list Z) | SetRace (x : list Z) | SetUniq (x : list Z)
| SetStart (x : list Z) | SetEnd (x : list Z) | SetCountry (x : list Z) | SetUuid (x : list Z).

Definition put (ok : bool) (v v' : bv) : bv * option nat := if ok then (v', Some 0%nat) else (v, None).
Definition is_state (a b : game_state) : bool :=
  match a, b with
  | Ready, Ready | PreFlaging, PreFlaging | Playing, Playing | Loss, Loss | Win, Win
  | Display, Display => true
  | _, _ => false
  end.
Definition bv_set (v : bv) (c : setter) : bv * option nat :=
  let st := b_state v in
  match c with
  | SetPixSize x =>                                                                  (* 1096-1105 *)
      if negb (is_state st Ready) && negb (is_state st Win) && negb (is_state st Loss)
      then (v, None) else (on_meta v (fun f => vw_pix f x), Some 0%nat)
  | SetRtime ms =>                                                                   (* 1143-1151 *)
      if negb (b_allow_rtime v) then (v, None)
      else (bw_allow_rtime (on_meta v (fun f => vw_rtime_ms f ms)) false, Some 0%nat)
  | SetSoftware x =>                                                                 (* 1284-1293 *)
      if negb (is_state st Loss) && negb (is_state st Win) && negb (is_state st Ready)
      then (v, None) else (on_meta v (fun f => vw_software f x), Some 0%nat)
  | SetOffical x => put (is_over st) v (on_meta v (fun f => vw_offical f x))         (* 1257-1265 *)
  | SetFair x => put (is_over st) v (on_meta v (fun f => vw_fair f x))               (* 1266-1274 *)
  | SetMode x => put (is_over st) v (on_meta v (fun f => vw_mode f x))               (* 1275-1283 *)
  | SetPlayer x => put (is_over st) v (on_meta v (fun f => vw_player f x))           (* 1295-1303 *)
  | SetRace x => put (is_over st) v (on_meta v (fun f => vw_race f x))               (* 1304-1312 *)
  | SetUniq x => put (is_over st) v (on_meta v (fun f => vw_uniq f x))               (* 1313-1321 *)
  | SetStart x => put (is_over st) v (on_meta v (fun f => vw_start f x))             (* 1323-1331 *)
  | SetEnd x => put (is_over st) v (on_meta v (fun f => vw_end f x))                 (* 1333-1341 *)
  | SetCountry x => put (is_over st) v (on_meta v (fun f => vw_country f x))         (* 1342-1350 *)
  | SetUuid x => put (is_over st) v (on_meta v (fun f => vw_uuid f x))               (* 1351-1358 *)
  end.

(** The saving side (Evf.v) of this object: [generate_evf_v0_raw_data] (1759-1882) and
    [set_checksum] (1360-1379). *)
Definition saved_video (v : bv) : video := vw_events (b_meta v) (map ev_of (b_rec v)).
Definition saver_of (v : bv) : saver := Saver (b_state v) (saved_video v) (b_raw v) (b_has v).
Definition bv_generate (v : bv) : R bv :=
  let* raw := generate_evf (saved_video v) (b_has v) in
  Ok (bw_raw v raw).
Definition bv_set_checksum (v : bv) (c : list Z) : R (bv * option nat) :=
  let* (s, o) := set_checksum (saver_of v) c in
  Ok (bw_has (bw_raw (on_meta v (fun f => w_checksum f (v_checksum (sv_video s)))) (sv_raw s)) (sv_has s), o).

(** ** Getters *)

(** base_video.rs 1169-1187 [get_rtime_ms] (and [get_rtime]) *)
Definition get_rtime_ms (v : bv) : option Z :=
  match b_state v with Loss | Win | Display => Some (v_rtime_ms (b_meta v)) | _ => None end.
(** 1743-1748 [get_pix_size] *)
Definition get_pix_size (v : bv) : option Z :=
  match b_state v with Display => Some (v_pix (b_meta v)) | _ => None end.
(** 1389-1434 [get_left], [get_right], [get_double], [get_cl], [get_flag] *)
Inductive counter : Type := Left | Right | Double | Cl | Flag.
Definition key_of (m : mb) (k : counter) : nat :=
  match k with
  | Left => m_left m | Right => m_right m | Double => m_double m
  | Cl => (m_left m + m_right m + m_double m)%nat | Flag => m_flag m
  end.
Definition rec_key (r : rec) (k : counter) : nat :=
  match k with
  | Left => r_left r | Right => r_right r | Double => r_double r
  | Cl => (r_left r + r_right r + r_double r)%nat | Flag => r_flag r
  end.
Definition get_counter (v : bv) (k : counter) : R nat :=
  match b_state v with
  | Display => let* r := vget (b_rec v) (b_cur v) in Ok (rec_key r k)
  | _ => Ok (key_of (b_mb v) k)
  end.
(** 1558-1577 [get_bbbv_solved] and 1627-1641 [get_ce]; the derived f64 getters (get_etime, get_bbbv_s,
    get_stnb, get_rqp, get_qg, get_ce_s, get_corr, get_thrp, get_ioe) err exactly when these do. *)
Definition get_final (v : bv) (field : rec -> nat) : R (option nat) :=
  match b_state v with
  | Display => let* r := vget (b_rec v) (b_cur v) in Ok (Some (field r))
  | Win | Loss => match rev (b_rec v) with [] => Panic | r :: _ => Ok (Some (field r)) end
  | _ => Ok None
  end.
Definition get_bbbv_solved (v : bv) : R (option nat) := get_final v r_solved.
Definition get_ce (v : bv) : R (option nat) := get_final v r_ce.

(** ** Showing the mines at the end *)

(** base_video.rs 961-974 [win_then_flag_all_mine] *)
Definition win_then_flag_all_mine (v : bv) : bv :=
  match m_state (b_mb v) with
  | Win => bw_mb v (w_gb (b_mb v) (map (map (fun x => if x =? 10 then 11 else x)) (m_gb (b_mb v))))
  | _ => v
  end.
(** base_video.rs 977-996 [loss_then_open_all_mine] *)
Definition loss_then_open_all_mine (v : bv) : R bv :=
  match m_state (b_mb v) with
  | Loss =>
      let* g := foldM (fun g '(i, j) =>
                   let* b := get (m_board (b_mb v)) i j in
                   if b =? -1 then
                     let* w := get g i j in
                     if w =? 10 then set g i j 16 else Ok g
                   else Ok g)
                 (grid (v_height (b_meta v)) (v_width (b_meta v))) (m_gb (b_mb v)) in
      Ok (bw_mb v (w_gb (b_mb v) g))
  | _ => Ok v
  end.

(** ** A session: the calls a program makes on one recording object *)
Inductive vcall : Type :=
| VStep (now : Z) (stamp : list Z) (e : event) (p : nat * nat)
| VBoard (b : board)
| VSet (c : setter)
| VChecksum (c : list Z)
| VGenerate
| VReset (row column : nat) (pix : Z)
| VFlagAll | VOpenAll.
Definition vcall1 (v : bv) (c : vcall) : R bv :=
  match c with
  | VStep now stamp e p => let* r := bv_step v now stamp e p in Ok (fst r)
  | VBoard b => let* r := set_board v b in Ok (fst r)
  | VSet c => Ok (fst (bv_set v c))
  | VChecksum c => let* r := bv_set_checksum v c in Ok (fst r)
  | VGenerate => bv_generate v
  | VReset row column pix => bv_reset v row column pix
  | VFlagAll => Ok (win_then_flag_all_mine v)
  | VOpenAll => loss_then_open_all_mine v
  end.
Definition vexec (v : bv) (cs : list vcall) : R bv := foldM vcall1 cs v.
