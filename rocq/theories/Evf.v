(** * Evf: model of the evf file codec.

    base/src/videos/base_video.rs ([get_u8] ... [get_char], [generate_evf_v0_raw_data],
    [set_checksum], [get_checksum]) and base/src/videos/evf_video.rs ([parse_video]).

    Bytes and the fixed-width integers are [Z]. Times are carried in whole milliseconds: the code
    keeps them as f64 seconds and converts with [s_to_ms] (miscellaneous.rs 6-8) when it writes and
    with [/ 1000.0] when it reads; that these two conversions are inverse on the integers used here
    is proved separately in FloatTime.v. *)
From Verif Require Import Base LayMine MineBoard.
Open Scope Z_scope.

(** [ErrReadVideoReason::FileIsTooShort] (base_video.rs 25-37). *)
Definition FileIsTooShort : nat := 1.

(** One recorded event, base_video.rs 51-90 [VideoActionStateRecorder]: only the four fields that
    are written to the file. *)
Record vev : Type := VEv { ve_mouse : event; ve_ms : Z; ve_x : Z; ve_y : Z }.

(** The fields of base_video.rs 236-334 [BaseVideo] that are written to or read from a file. *)
Record video : Type := Video {
  v_completed : bool;
  v_offical : bool;
  v_fair : bool;
  v_height : nat;
  v_width : nat;
  v_mine_num : Z;
  v_pix : Z;                (* cell_pixel_size *)
  v_mode : Z;
  v_bbbv : Z;               (* static_params.bbbv *)
  v_rtime_ms : Z;           (* game_dynamic_params.rtime_ms *)
  v_software : list Z;
  v_player : list Z;
  v_race : list Z;
  v_uniq : list Z;
  v_start : list Z;
  v_end : list Z;
  v_country : list Z;
  v_uuid : list Z;
  v_board : board;
  v_level : Z;
  v_events : list vev;      (* video_action_state_recorder *)
  v_checksum : list Z
}.

(** ** Writing *)

(** [x.try_into().unwrap()] to u8. *)
Definition u8_try (z : Z) : R Z := if (0 <=? z) && (z <? 256) then Ok z else Panic.

(** The pushes of a two-byte number, e.g. base_video.rs 1776-1778. *)
Definition push16 (raw : list Z) (z : Z) : R (list Z) :=
  let* a := u8_try (Z.shiftr z 8) in
  let* b := u8_try (z mod 256) in
  Ok (raw ++ [a; b]).

(** The pushes of a three-byte number, e.g. base_video.rs 1786-1800. *)
Definition push24 (raw : list Z) (z : Z) : R (list Z) :=
  let* a := u8_try (Z.shiftr z 16) in
  let* b := u8_try (Z.shiftr z 8 mod 256) in
  let* c := u8_try (z mod 256) in
  Ok (raw ++ [a; b; c]).

(** base_video.rs 1824-1844: one board cell of the packing loop; state (raw, byte, ptr). *)
Definition pack_step (bd : board) (st : list Z * Z * nat) (p : pos) : R (list Z * Z * nat) :=
  let '(raw, byte, ptr) := st in
  let byte := (Z.shiftl byte 1) mod 256 in
  let* c := get bd (fst p) (snd p) in
  let byte := if c =? -1 then Z.lor byte 1 else byte in
  let ptr := (ptr + 1)%nat in
  if (ptr =? 8)%nat then Ok (raw ++ [byte], 0, 0%nat) else Ok (raw, byte, ptr).

(** base_video.rs 1853-1865: the code of an event kind. *)
Definition op_code (e : event) : Z :=
  match e with
  | e_mv => 1 | e_lc => 2 | e_lr => 3 | e_rc => 4 | e_rr => 5
  | e_mc => 6 | e_mr => 7 | e_pf => 8 | e_cc => 9
  | _ => 99
  end.

(** base_video.rs 1851-1873: one event. *)
Definition push_event (raw : list Z) (e : vev) : R (list Z) :=
  let raw := raw ++ [op_code (ve_mouse e)] in
  let* raw := push24 raw (ve_ms e) in
  let* raw := push16 raw (ve_x e) in
  push16 raw (ve_y e).

(** base_video.rs 1759-1882 [generate_evf_v0_raw_data]; the result is the new [raw_data].
    [has_checksum] is the private field of the same name. *)
Definition generate_evf (v : video) (has_checksum : bool) : R (list Z) :=
  let flags := 0 in
  let flags := if v_completed v then Z.lor flags 128 else flags in
  let flags := if v_offical v then Z.lor flags 64 else flags in
  let flags := if v_fair v then Z.lor flags 32 else flags in
  let raw := [0; flags] in
  let raw := raw ++ [Z.of_nat (v_height v) mod 256] in
  let raw := raw ++ [Z.of_nat (v_width v) mod 256] in
  let* raw := push16 raw (v_mine_num v) in
  let raw := raw ++ [v_pix v] in
  let* raw := push16 raw (v_mode v) in
  let* raw := push16 raw (v_bbbv v) in
  let* raw := push24 raw (v_rtime_ms v) in
  let raw := (raw ++ v_software v) ++ [0] in
  let raw := (raw ++ v_player v) ++ [0] in
  let raw := (raw ++ v_race v) ++ [0] in
  let raw := (raw ++ v_uniq v) ++ [0] in
  let raw := (raw ++ v_start v) ++ [0] in
  let raw := (raw ++ v_end v) ++ [0] in
  let raw := (raw ++ v_country v) ++ [0] in
  let raw := (raw ++ v_uuid v) ++ [0] in
  let* (raw, byte, ptr) :=
    foldM (pack_step (v_board v)) (grid (v_height v) (v_width v)) (raw, 0, 0%nat) in
  let raw := if (0 <? ptr)%nat
             then raw ++ [Z.shiftl byte (8 - Z.of_nat ptr) mod 256] else raw in
  let* raw := foldM push_event (v_events v) raw in
  if has_checksum then Ok ((raw ++ [0]) ++ v_checksum v) else Ok (raw ++ [255]).

(** ** Reading *)

(** A reader: from the raw data and the offset, a result and the new offset. *)
Definition P (A : Type) : Type := list Z -> nat -> R A * nat.
Definition pret {A} (a : A) : P A := fun _ o => (Ok a, o).
Definition plift {A} (r : R A) : P A := fun _ o => (r, o).
Definition pbind {A B} (p : P A) (k : A -> P B) : P B := fun raw o =>
  match p raw o with
  | (Ok a, o') => k a raw o'
  | (Err e, o') => (Err e, o')
  | (Panic, o') => (Panic, o')
  | (OutOfFuel, o') => (OutOfFuel, o')
  end.
Notation "'get*' x ':=' m 'in' k" := (pbind m (fun x => k))
  (at level 200, x pattern, m at level 100, k at level 200).

Fixpoint pfold {S A} (f : S -> A -> P S) (l : list A) (s : S) : P S :=
  match l with
  | [] => pret s
  | x :: l' => get* s' := f s x in pfold f l' s'
  end.

(** base_video.rs 683-690 [get_u8]: the offset moves even when the data has run out. *)
Definition get_u8 : P Z := fun raw o =>
  (match nth_error raw o with Some x => Ok x | None => Err FileIsTooShort end, S o).

(** base_video.rs 692-696 [get_u16] *)
Definition get_u16 : P Z :=
  get* a := get_u8 in get* b := get_u8 in
  pret (Z.lor (Z.shiftl a 8) b).

(** base_video.rs 697-702 [get_u24] *)
Definition get_u24 : P Z :=
  get* a := get_u8 in get* b := get_u8 in get* c := get_u8 in
  pret (Z.lor (Z.lor (Z.shiftl a 16) (Z.shiftl b 8)) c).

(** base_video.rs 703-709 [get_u32] *)
Definition get_u32 : P Z :=
  get* a := get_u8 in get* b := get_u8 in get* c := get_u8 in get* d := get_u8 in
  pret (Z.lor (Z.lor (Z.lor (Z.shiftl a 24) (Z.shiftl b 16)) (Z.shiftl c 8)) d).

(** base_video.rs 710-713 [get_char] *)
Definition get_char : P Z := get_u8.

(** evf_video.rs 82-88 (and the seven copies up to 130): a NUL-terminated string. *)
Fixpoint string_loop (fuel : nat) (acc : list Z) : P (list Z) :=
  match fuel with
  | O => plift OutOfFuel
  | S f => get* c := get_char in
           if c =? 0 then pret acc else string_loop f (acc ++ [c])
  end.
Definition get_string : P (list Z) := fun raw o => string_loop (S (length raw)) [] raw o.

(** evf_video.rs 136-147: one board cell of the unpacking loop; state (board, byte, ptr). *)
Definition unpack_step (st : board * Z * Z) (p : pos) : P (board * Z * Z) :=
  let '(b, byte, ptr) := st in
  let ptr := ptr - 1 in
  get* (byte, ptr) := (if ptr <? 0 then get* x := get_u8 in pret (x, 7) else pret (byte, ptr)) in
  if negb (Z.land byte (Z.shiftl 1 ptr) =? 0)
  then get* b := plift (set b (fst p) (snd p) (-1)) in pret (b, byte, ptr)
  else pret (b, byte, ptr).

(** evf_video.rs 166-183: the event kind of a code that is neither 0 nor 255. *)
Definition code_op (c : Z) : event :=
  if c =? 1 then e_mv else if c =? 2 then e_lc else if c =? 3 then e_lr
  else if c =? 4 then e_rc else if c =? 5 then e_rr else if c =? 6 then e_mc
  else if c =? 7 then e_mr else if c =? 8 then e_pf else if c =? 9 then e_cc
  else e_other.

(** evf_video.rs 162-198: the event loop; the boolean is [have_checksum]. *)
Fixpoint event_loop (fuel : nat) (acc : list vev) : P (list vev * bool) :=
  match fuel with
  | O => plift OutOfFuel
  | S f =>
      get* c := get_u8 in
      if c =? 0 then pret (acc, true)
      else if c =? 255 then pret (acc, false)
      else
        get* t := get_u24 in
        get* x := get_u16 in
        get* y := get_u16 in
        event_loop f (acc ++ [VEv (code_op c) t x y])
  end.
Definition get_events : P (list vev * bool) := fun raw o => event_loop (S (length raw)) [] raw o.

(** evf_video.rs 52-60 (and set_board, base_video.rs 667-675). *)
Definition level_of (height width : nat) (mine_num : Z) : Z :=
  if (height =? 8)%nat && (width =? 8)%nat && (mine_num =? 10) then 3
  else if (height =? 16)%nat && (width =? 16)%nat && (mine_num =? 40) then 4
  else if (height =? 16)%nat && (width =? 30)%nat && (mine_num =? 99) then 5
  else 6.

(** evf_video.rs 44-207 [parse_video], called on a video just made by [new]: every string and the
    event list are empty and [set_rtime] is still allowed, so its [unwrap] cannot fail. *)
Definition parse_video : P video :=
  get* _ := get_u8 in
  get* fl := get_u8 in
  let completed := negb (Z.land fl 128 =? 0) in
  let offical := negb (Z.land fl 64 =? 0) in
  let fair := negb (Z.land fl 32 =? 0) in
  get* height := get_u8 in
  get* width := get_u8 in
  get* mine_num := get_u16 in
  let height := Z.to_nat height in
  let width := Z.to_nat width in
  let level := level_of height width mine_num in
  get* pix := get_u8 in
  get* mode := get_u16 in
  get* bbbv := get_u16 in
  get* t := get_u24 in
  get* software := get_string in
  get* player := get_string in
  get* race := get_string in
  get* uniq := get_string in
  get* start := get_string in
  get* end_ := get_string in
  get* country := get_string in
  get* uuid := get_string in
  get* (b, _, _) := pfold unpack_step (grid height width) (mkboard height width 0, 0, 0) in
  get* b := plift (cal_board_numbers b) in
  get* (events, have_checksum) := get_events in
  get* csum := (if have_checksum : bool
                then pfold (fun l _ => get* x := get_u8 in pret (l ++ [x])) (seq 0 32) []
                else pret (repeat 0 32)) in
  pret (Video completed offical fair height width mine_num pix mode bbbv t
              software player race uniq start end_ country uuid b level events csum).

(** ** The saving side of a [BaseVideo]

    The fields that saving reads and writes: game_board_state, the recorded data, raw_data and
    has_checksum. [&mut self] methods return the new object and [Some 0] for [Ok(0)] or [None] for
    [Err(())]. *)
Record saver : Type := Saver {
  sv_state : game_state;
  sv_video : video;
  sv_raw : list Z;
  sv_has : bool
}.

Definition is_over (st : game_state) : bool :=
  match st with Win | Loss => true | _ => false end.
Definition is_over_or_display (st : game_state) : bool :=
  match st with Win | Loss | Display => true | _ => false end.

(** base_video.rs 1759-1882 as a method. *)
Definition sv_generate (s : saver) : R saver :=
  let* raw := generate_evf (sv_video s) (sv_has s) in
  Ok (Saver (sv_state s) (sv_video s) raw (sv_has s)).

Definition w_checksum (v : video) (c : list Z) : video :=
  Video (v_completed v) (v_offical v) (v_fair v) (v_height v) (v_width v) (v_mine_num v) (v_pix v)
        (v_mode v) (v_bbbv v) (v_rtime_ms v) (v_software v) (v_player v) (v_race v) (v_uniq v)
        (v_start v) (v_end v) (v_country v) (v_uuid v) (v_board v) (v_level v) (v_events v) c.

(** base_video.rs 1359-1379 [set_checksum]. [*last_mut().unwrap() = 0] panics on empty raw data;
    [len() - 32] underflows when there are fewer than 32 bytes. *)
Definition set_checksum (s : saver) (c : list Z) : R (saver * option nat) :=
  if negb (is_over (sv_state s)) then Ok (s, None)
  else if negb (sv_has s) then
    if (length (sv_raw s) =? 0)%nat then Panic
    else
      let raw := upd_nth (sv_raw s) (length (sv_raw s) - 1) 0 in
      let raw := raw ++ c in
      Ok (Saver (sv_state s) (w_checksum (sv_video s) c) raw true, Some 0%nat)
  else
    if (length (sv_raw s) <? 32)%nat then Panic
    else
      let ptr := (length (sv_raw s) - 32)%nat in
      let* raw := foldM (fun raw i => let* x := vget c i in vset raw (ptr + i) x)
                        (seq 0 32) (sv_raw s) in
      Ok (Saver (sv_state s) (sv_video s) raw (sv_has s), Some 0%nat).

(** base_video.rs 1710-1718 [get_checksum] *)
Definition get_checksum (s : saver) : option (list Z) :=
  if is_over_or_display (sv_state s) then Some (v_checksum (sv_video s)) else None.

(** base_video.rs 1380-1388 [get_raw_data] *)
Definition get_raw_data (s : saver) : option (list Z) :=
  if is_over_or_display (sv_state s) then Some (sv_raw s) else None.
