(** * OldVideos: model of the parsers of the avf, rmv and mvf files
    (base/src/videos/avf_video.rs, rmv_video.rs, mvf_video.rs: [parse_video]).

    The readers are those of Evf.v (base_video.rs 683-713). Times are exact: the code stores the nearest
    f64. Event kinds: Evf.v's; the name "sc" (avf code 11), which no other part of the code knows, is
    [e_other]. [parse_video] is called once on an object just made by [new]: the vectors are empty and
    [set_rtime] is allowed. *)
From Verif Require Import Base LayMine MineBoard Evf.
Open Scope Z_scope.

(** base_video.rs 27-37 [ErrReadVideoReason]; [FileIsTooShort] is 1 (Evf.v) *)
Definition FileIsNotRmv : nat := 2.
Definition FileIsEmpty : nat := 3.
Definition InvalidLevel : nat := 5.
Definition InvalidParams : nat := 6.
Definition InvalidVideoEvent : nat := 7.
Definition InvalidMinePosition : nat := 8.

(** The fields of [BaseVideo] that these parsers set. *)
Record oldv : Type := OldV {
  o_software : list Z;
  o_level : Z;
  o_width : nat;
  o_height : nat;
  o_mines : Z;
  o_mode : Z;
  o_nf : bool;
  o_bbbv : Z;
  o_rtime_ms : Z;
  o_start : list Z;
  o_end : list Z;
  o_player : list Z;
  o_country : list Z;
  o_board : board;
  o_events : list vev
}.

(** [self.data.offset += n] *)
Definition skip (n : nat) : P unit := fun _ o => (Ok tt, (o + n)%nat).

(** A loop whose body reads: it goes on with [inl] and ends with [inr]. Every body here reads at least
    one byte per round, so that [length raw + 1] rounds are enough. *)
Fixpoint loop_fuel {S A} (fuel : nat) (f : S -> P (S + A)) (s : S) : P A :=
  match fuel with
  | O => plift OutOfFuel
  | S n => get* r := f s in match r with inl s' => loop_fuel n f s' | inr a => pret a end
  end.
Definition loop {S A} (f : S -> P (S + A)) (s : S) : P A := fun raw o => loop_fuel (Datatypes.S (length raw)) f s raw o.

(** [for _ in 0..n { v.push(self.data.get_u8()?) }] *)
Definition take (n : nat) : P (list Z) := pfold (fun l _ => get* x := get_u8 in pret (l ++ [x])) (seq 0 n) [].

(** avf_video.rs 137-143, 149-155, 172-178, 184-190, 247-253: read up to the character [c]. *)
Definition until (c : Z) : P (list Z) :=
  loop (fun acc => get* v := get_char in if v =? c then pret (inr acc) else pret (inl (acc ++ [v]))) [].
(** avf_video.rs 241-246: [while self.data.get_char()? != c {}] *)
Definition seek (c : Z) : P unit :=
  loop (fun _ : unit => get* v := get_char in if v =? c then pret (inr tt) else pret (inl tt)) tt.

(** [str::parse::<usize>]: an optional plus sign, at least one digit, no overflow. *)
Definition digits_value (l : list Z) : option Z :=
  fold_left (fun acc c => match acc with
                          | Some a => if (48 <=? c) && (c <=? 57) then Some (a * 10 + (c - 48)) else None
                          | None => None
                          end) l (Some 0).
Definition parse_usize (l : list Z) : option Z :=
  let l := match l with c :: l' => if c =? 43 then l' else l | [] => [] end in
  match l with
  | [] => None
  | _ => match digits_value l with
         | Some v => if v <? 2 ^ 64 then Some v else None
         | None => None
         end
  end.

(** avf_video.rs 106-110: one mine. [c - 1] underflows for 0. *)
Definition avf_mine (b : board) (_ : nat) : P board :=
  get* c := get_u8 in
  get* d := get_u8 in
  get* c := plift (usub (Z.to_nat c) 1) in
  get* d := plift (usub (Z.to_nat d) 1) in
  plift (set b c d (-1)).

(** avf_video.rs 212-225 *)
Definition avf_kind (c : Z) : option event :=
  if c =? 1 then Some e_mv else if c =? 3 then Some e_lc else if c =? 5 then Some e_lr
  else if c =? 9 then Some e_rc else if c =? 17 then Some e_rr else if c =? 33 then Some e_mc
  else if c =? 65 then Some e_mr else if c =? 145 then Some e_rr else if c =? 193 then Some e_mr
  else if c =? 11 then Some e_other else if c =? 21 then Some e_lr else None.

(** avf_video.rs 205-239: the events; the state is the list of events and the 8 bytes of the buffer. *)
Definition avf_event (st : list vev * list Z) : P ((list vev * list Z) + list vev) :=
  let '(acc, bf) := st in
  let b i := nth i bf 0 in
  match avf_kind (b 0%nat) with
  | None => plift (Err InvalidVideoEvent)
  | Some k =>
      let e := VEv k (Z.lor (Z.shiftl (b 6%nat) 8) (b 2%nat) * 1000 - 1000 + b 4%nat * 10)
                     (Z.lor (Z.shiftl (b 1%nat) 8) (b 3%nat)) (Z.lor (Z.shiftl (b 5%nat) 8) (b 7%nat)) in
      get* bf := take 8 in
      if (nth 2 bf 0 =? 0) && (nth 6 bf 0 =? 0) then pret (inr (acc ++ [e])) else pret (inl (acc ++ [e], bf))
  end.

(** avf_video.rs 156-170: find "|B" *)
Definition avf_find_B : P unit :=
  get* v := get_char in
  let bf := if v =? 124 then (0, 124) else if v =? 66 then (124, 66) else (0, 0) in
  if (fst bf =? 124) && (snd bf =? 66) then pret tt
  else loop (fun '(b1, b2) => get* v := get_char in
               if (b2 =? 124) && (v =? 66) then pret (inr tt) else pret (inl (b2, v))) bf.

(** avf_video.rs 71-262. [rtime_of] stands for the result time of a text:
    [s_to_ms(s.parse::<f64>()? - 1.0)]; nothing is assumed about it. The number loop (112-124) is that of
    [cal_board_numbers]; [height] and [width] there are the sizes of the board. *)
Definition parse_avf (rtime_of : list Z -> option Z) : P oldv := fun raw o =>
  match get_u8 raw o with
  | (Ok _, o) =>
   (get* _ := skip 4 in
    get* level := get_u8 in
    get* (width, height, mine_num) :=
      (if level =? 3 then pret (8%nat, 8%nat, 10)
       else if level =? 4 then pret (16%nat, 16%nat, 40)
       else if level =? 5 then pret (30%nat, 16%nat, 99)
       else if level =? 6 then
         get* w := get_u8 in
         get* h := get_u8 in
         get* m := get_u16 in
         pret ((Z.to_nat w + 1)%nat, (Z.to_nat h + 1)%nat, m)
       else plift (Err InvalidLevel)) in
    get* b := (get* b := pfold avf_mine (seq 0 (Z.to_nat mine_num)) (mkboard height width 0) in plift (cal_board_numbers b)) in
    (* 125-136 *)
    get* _ := loop (fun '(b1, b2) =>
                get* v := get_char in
                if (b1 =? 91) && ((b2 =? 48) || (b2 =? 49) || (b2 =? 50) || (b2 =? 51)) && (v =? 124)
                then pret (inr tt) else pret (inl (b2, v))) (0, 0) in
    get* start := until 124 in
    get* end_ := until 124 in
    get* _ := avf_find_B in
    get* s := until 84 in
    get* bbbv := plift (match parse_usize s with Some v => Ok v | None => Err InvalidParams end) in
    get* s := until 93 in
    let s := map (fun c => if c =? 44 then 46 else c) s in
    get* rtime := plift (match rtime_of s with Some v => Ok v | None => Err InvalidParams end) in
    (* 196-204 *)
    get* (b0, b1) := loop (fun '(b1, b2) =>
                       get* v := get_u8 in
                       if (v =? 1) && (b2 <=? 1) then pret (inr (b1, b2)) else pret (inl (b2, v))) (0, 0) in
    get* rest := take 5 in
    get* events := loop avf_event ([], b0 :: b1 :: 1 :: rest) in
    get* _ := seek 83 in
    get* _ := seek 107 in
    get* _ := seek 105 in
    get* _ := seek 110 in
    get* _ := seek 58 in
    get* _ := seek 13 in
    get* player := until 13 in
    pret (OldV [65; 114; 98; 105; 116; 101; 114] level width height mine_num 0 false bbbv rtime start end_ player [] b events)) raw o
  | (_, o) => (Err FileIsEmpty, o)
  end.

(** ** rmv *)

(** rmv_video.rs 51-66: a character of the file's mark *)
Definition expect (c : Z) (p : P Z) : P unit := fun raw o =>
  match p raw o with
  | (Ok v, o) => if v =? c then (Ok tt, o) else (Err FileIsNotRmv, o)
  | (_, o) => (Err FileIsNotRmv, o)
  end.

(** rmv_video.rs 153-160: one mine *)
Definition rmv_mine (width height : nat) (b : board) (_ : nat) : P board :=
  get* c := get_u8 in
  get* d := get_u8 in
  if (width <=? Z.to_nat c)%nat || (height <=? Z.to_nat d)%nat then plift (Err InvalidMinePosition)
  else plift (set b (Z.to_nat d) (Z.to_nat c) (-1)).

(** rmv_video.rs 165-176: one pre-flag: [x: d * 16, y: c * 16] *)
Definition rmv_preflag (l : list vev) (_ : nat) : P (list vev) :=
  get* c := get_u8 in
  get* d := get_u8 in
  pret (l ++ [VEv e_pf 0 (d * 16) (c * 16)]).

(** rmv_video.rs 221-229; only called with 1..7 *)
Definition rmv_kind (c : Z) : event :=
  if c =? 1 then e_mv else if c =? 2 then e_lc else if c =? 3 then e_lr
  else if c =? 4 then e_rc else if c =? 5 then e_rr else if c =? 6 then e_mc else e_mr.

(** rmv_video.rs 191-245: one round of the event loop; the state: events, first_op_flag. *)
Definition rmv_event (width height : nat) (st : list vev * bool) : P ((list vev * bool) + list vev) :=
  let '(acc, first) := st in
  get* c := get_u8 in
  if c =? 0 then get* _ := skip 4 in pret (inl (acc, first))
  else if c <=? 7 then
    get* t := get_u32 in
    get* x := get_u16 in
    get* y := get_u16 in
    let t := Z.shiftr t 8 in
    let x := (x - 12) mod 65536 in
    let y := (y - 56) mod 65536 in
    let W := Z.of_nat width * 16 in
    let H := Z.of_nat height * 16 in
    let '(x, y) := if (W <=? x) || (H <=? y) then (W, H) else (x, y) in
    let acc := if first : bool then acc ++ [VEv e_lc t x y] else acc in
    pret (inl (acc ++ [VEv (rmv_kind c) t x y], false))
  else if c =? 8 then plift (Err InvalidParams)
  else if (c <=? 14) || ((18 <=? c) && (c <=? 27)) then get* _ := skip 2 in pret (inl (acc, first))
  else if c <=? 17 then pret (inr acc)
  else plift (Err InvalidParams).

(** rmv_video.rs 115-140: a string with its length in front, if there are more than [k] strings *)
Definition rmv_string (n k : Z) : P (list Z) :=
  if k <? n then get* l := get_u8 in take (Z.to_nat l) else pret [].

(** [u16] subtraction *)
Definition usubZ (a b : Z) : R Z := if b <=? a then Ok (a - b) else Panic.

(** rmv_video.rs 46-73: the mark and the four sizes: result string, version, pre-flags, properties *)
Definition rmv_header : P (Z * Z * Z * Z) := fun raw o =>
  match get_char raw o with
  | (Ok v, o) =>
   (get* _ := plift (if v =? 42 then Ok tt else Err FileIsNotRmv) in
    get* _ := expect 114 get_char in
    get* _ := expect 109 get_char in
    get* _ := expect 118 get_char in
    get* _ := expect 1 get_u16 in
    get* _ := skip 4 in
    get* result_size := get_u16 in
    get* version_size := get_u16 in
    get* _ := skip 4 in
    get* preflags_size := get_u16 in
    get* properties_size := get_u16 in
    pret (result_size, version_size, preflags_size, properties_size)) raw o
  | (_, o) => (Err FileIsEmpty, o)
  end.
(** rmv_video.rs 74-142: 3BV, time stamp, player and country *)
Definition rmv_texts (result_size version_size : Z) : P (Z * list Z * list Z * list Z) :=
  get* _ := skip 7 in
  get* (bbbv, start) :=
    (if 35 <? result_size then
       get* _ := skip (Z.to_nat (result_size - 32)) in
       get* s := take 3 in
       get* bbbv := plift (match parse_usize (filter (fun c => (48 <=? c) && (c <=? 57)) s) with
                           | Some v => Ok v | None => Err InvalidParams end) in
       get* _ := skip 16 in
       get* start := take 10 in
       pret (bbbv, start)
     else
       get* n := plift (usubZ result_size 3) in
       get* _ := take (Z.to_nat n) in
       pret (0, [])) in
  get* _ := skip (Z.to_nat version_size + 2) in
  get* n := get_u16 in
  get* player := rmv_string n 0 in
  get* _ := rmv_string n 1 in
  get* country := rmv_string n 2 in
  get* _ := rmv_string n 3 in
  pret (bbbv, start, player, country).
(** rmv_video.rs 144-148: width, height, number of mines *)
Definition rmv_size : P (nat * nat * Z) :=
  get* _ := skip 4 in
  get* width := get_u8 in
  get* height := get_u8 in
  get* mine_num := get_u16 in
  pret (Z.to_nat width, Z.to_nat height, mine_num).
(** rmv_video.rs 163-177: the pre-flags *)
Definition rmv_preflags (preflags_size : Z) : P (list vev) :=
  if 0 <? preflags_size then
    get* k := get_u16 in
    pfold rmv_preflag (seq 0 (Z.to_nat k)) []
  else pret [].
(** rmv_video.rs 179-188: nf, mode, level *)
Definition rmv_props (properties_size : Z) : P (bool * Z * Z * Z) :=
  get* _ := skip 1 in
  get* nf := get_u8 in
  get* mode := get_u8 in
  get* level := get_u8 in
  get* level := plift (if level + 3 <? 256 then Ok (level + 3) else Panic) in
  get* n := plift (usubZ properties_size 4) in
  pret (nf =? 1, mode, level, n).

(** rmv_video.rs 42-252 *)
Definition parse_rmv : P oldv :=
  get* (result_size, version_size, preflags_size, properties_size) := rmv_header in
  get* (bbbv, start, player, country) := rmv_texts result_size version_size in
  get* (width, height, mine_num) := rmv_size in
  get* b := (get* b := pfold (rmv_mine width height) (seq 0 (Z.to_nat mine_num)) (mkboard height width 0) in plift (cal_board_numbers b)) in
  get* pf := rmv_preflags preflags_size in
  get* (nf, mode, level, n) := rmv_props properties_size in
  get* events := (get* _ := skip (Z.to_nat n) in loop (rmv_event width height) (pf, true)) in
  get* rtime := plift (match rev events with [] => Panic | e :: _ => Ok (ve_ms e) end) in
  pret (OldV [86; 105; 101; 110; 110; 97; 115; 119; 101; 101; 112; 101; 114] level width height mine_num mode nf
             bbbv rtime start [] player country b events).

(** ** mvf *)

(** mvf_video.rs 50-55: one mine: [(get_u8()? as i32 + add) as usize] with add = -1; a negative number
    becomes a huge one, the index is out of bounds. *)
Definition mvf_mine (b : board) (_ : nat) : P board :=
  get* w := get_u8 in
  get* h := get_u8 in
  plift (if (h =? 0) || (w =? 0) then Panic else set b (Z.to_nat (h - 1)) (Z.to_nat (w - 1)) (-1)).

(** [format!("{:08}", n)], as digits; a usize has at most 20 digits. *)
Fixpoint dec_digits (fuel : nat) (n : Z) : list Z :=
  match fuel with
  | O => []
  | S f => if n <? 10 then [n] else dec_digits f (n / 10) ++ [n mod 10]
  end.
Definition fmt08 (n : Z) : list Z :=
  let d := dec_digits 20 n in repeat 0 (8 - length d) ++ d.

(** mvf_video.rs 153-192: the 40 digits; [magic] are the five numbers computed from the leading number
    with sqrt, sin and cos (a parameter: nothing is assumed about them but that they are usize). Only the
    first 8 characters of each are used. *)
Definition key_digits (magic : Z -> list Z) (leading : Z) : list Z := concat (map (fun n => firstn 8 (fmt08 n)) (magic leading)).

(** mvf_video.rs 194-204: state (byte, bit, cur); arrays of 40 *)
Definition key_step (s : list Z) (st : list nat * list Z * nat) (ij : Z * nat) : R (list nat * list Z * nat) :=
  let '(byte, bit, cur) := st in
  let '(i, j) := ij in
  let* c := vget s j in
  if c =? i then
    let* byte := vset byte cur (j / 8)%nat in
    let* bit := vset bit cur (Z.shiftl 1 (Z.of_nat (j mod 8))) in
    Ok (byte, bit, (cur + 1)%nat)
  else Ok (byte, bit, cur).
Definition key_table (s : list Z) : R (list nat * list Z) :=
  let* (byte, bit, _) :=
    foldM (key_step s) (flat_map (fun i => map (fun j => (i, j)) (seq 0 40)) [0; 1; 2; 3; 4; 5; 6; 7; 8; 9]) (repeat 0%nat 40, repeat 0 40, 0%nat) in
  Ok (byte, bit).

(** mvf_video.rs 96-103 [apply_perm] *)
Definition apply_perm (num : nat) (byte : list nat) (bit : list Z) (e : list Z) : R Z :=
  let* k := vget byte num in
  let* v := vget e k in
  let* m := vget bit num in
  Ok (if 0 <? Z.land v m then 1 else 0).

(** the buttons, the place and the time of one record: rb, mb, lb, x, y, hundredths, seconds *)
Record mstate : Type := MState { s_rb : Z; s_mb : Z; s_lb : Z; s_x : Z; s_y : Z; s_hs : Z; s_sec : Z }.

(** [for j in 0..n { x |= apply_perm(start + j) << j }] *)
Definition field (start n : nat) (byte : list nat) (bit e : list Z) : R Z :=
  foldM (fun x j => let* v := apply_perm (start + j) byte bit e in Ok (Z.lor x (Z.shiftl v (Z.of_nat j)))) (seq 0 n) 0.
(** mvf_video.rs 213-235 and 259-279 *)
Definition decode (byte : list nat) (bit : list Z) (e : list Z) : R mstate :=
  let* rb := apply_perm 0 byte bit e in
  let* mb := apply_perm 1 byte bit e in
  let* lb := apply_perm 2 byte bit e in
  let* x := field 12 9 byte bit e in
  let* y := field 3 9 byte bit e in
  let* hs := field 21 7 byte bit e in
  let* sec := field 28 10 byte bit e in
  Ok (MState rb mb lb x y hs sec).
Definition state_ms (s : mstate) : Z := s_hs s * 10 + s_sec s * 1000.

(** mvf_video.rs 59-95 [parse_event] *)
Definition mvf_changes (s p : mstate) (px py : Z) : list event :=
  (if negb (s_x s =? px) || negb (s_y s =? py) then [e_mv] else []) ++
  (if (0 <? s_lb s) && (s_lb p =? 0) then [e_lc] else []) ++
  (if (0 <? s_rb s) && (s_rb p =? 0) then [e_rc] else []) ++
  (if (0 <? s_mb s) && (s_mb p =? 0) then [e_mc] else []) ++
  (if (s_lb s =? 0) && (0 <? s_lb p) then [e_lr] else []) ++
  (if (s_rb s =? 0) && (0 <? s_rb p) then [e_rr] else []) ++
  (if (s_mb s =? 0) && (0 <? s_mb p) then [e_mr] else []).

(** mvf_video.rs 255-299: one record; state: events, previous buttons, prev_x, prev_y *)
Definition mvf_event (byte : list nat) (bit : list Z) (st : list vev * mstate * Z * Z) (_ : nat) : P (list vev * mstate * Z * Z) :=
  let '(acc, p, px, py) := st in
  get* e := take 5 in
  get* s := plift (decode byte bit e) in
  pret (acc ++ map (fun k => VEv k (state_ms s) (s_x s) (s_y s)) (mvf_changes s p px py), s, s_x s, s_y s).

(** mvf_video.rs 111-137: date, level, mode, time, 3BV: level, mode, rtime (ms), bbbv *)
Definition mvf_head : P (Z * Z * Z * Z) :=
  get* _ := take 7 in
  get* level := get_u8 in
  get* level := plift (if level + 2 <? 256 then Ok (level + 2) else Panic) in
  get* mode := get_u8 in
  let mode := if mode =? 1 then 0 else if mode =? 2 then 3 else if mode =? 3 then 1 else 2 in
  get* sec := get_u16 in
  get* hs := get_u8 in
  get* bbbv := get_u16 in
  pret (level, mode, sec * 1000 + hs * 10, bbbv).
(** mvf_video.rs 139-142 and 45-49: nine bytes passed over, then width, height, number of mines *)
Definition mvf_size : P (nat * nat * Z) :=
  get* _ := skip 8 in
  get* _ := skip 1 in
  get* width := get_u8 in
  get* height := get_u8 in
  get* mine_num := get_u16 in
  pret (Z.to_nat width, Z.to_nat height, mine_num).
(** mvf_video.rs 147-151 *)
Definition mvf_player : P (list Z) :=
  get* l := get_u8 in
  take (Z.to_nat l).
(** mvf_video.rs 153-299: the key and the records *)
Definition mvf_records (magic : Z -> list Z) : P (list vev) :=
  get* leading := get_u16 in
  get* (byte, bit) := plift (key_table (key_digits magic leading)) in
  get* size := get_u24 in
  get* e := take 5 in
  get* s := plift (decode byte bit e) in
  let k := if 0 <? s_mb s then e_mc else if 0 <? s_rb s then e_rc else if 0 <? s_lb s then e_lc else e_mv in
  get* n := plift (usubZ size 1) in
  get* (events, _, _, _) := pfold (mvf_event byte bit) (seq 0 (Z.to_nat n)) ([VEv k (state_ms s) (s_x s) (s_y s)], s, 0, 0) in
  pret events.
(** mvf_video.rs 104-303 [read_097] *)
Definition read_097 (magic : Z -> list Z) : P oldv :=
  get* (level, mode, rtime, bbbv) := mvf_head in
  get* (width, height, mine_num) := mvf_size in
  get* b := (get* b := pfold mvf_mine (seq 0 (Z.to_nat mine_num)) (mkboard height width 0) in plift (cal_board_numbers b)) in
  get* player := mvf_player in
  get* events := mvf_records magic in
  pret (OldV [48; 46; 57; 55; 32; 98; 101; 116; 97] level width height mine_num mode false bbbv rtime
             [] [] player [] b events).

Definition empty_oldv : oldv := OldV [] 0 0 0 0 0 false 0 0 [] [] [] [] [] [].

(** mvf_video.rs 304-327. Files of any other kind are accepted without reading anything. *)
Definition parse_mvf (magic : Z -> list Z) : P oldv :=
  get* c := get_u8 in
  get* d := get_u8 in
  if (c =? 17) && (d =? 77) then
    get* _ := skip 25 in
    get* c := get_u8 in
    if c =? 53 then get* _ := skip 46 in read_097 magic else pret empty_oldv
  else pret empty_oldv.
