(** * OldSpec: the avf, rmv and mvf file formats (C50, C66). *)
From Verif Require Import Base Spec MineBoard Evf EvfSpec.
Open Scope Z_scope.

(** [b] is the board with exactly these mines. *)
Definition board_of (height width : nat) (mines : list pos) (b : board) : Prop :=
  legal_board height width b /\ Forall (inb height width) mines /\
  forall p, inb height width p -> (is_mine b p = true <-> In p mines).

(** [z] ends at the first place where [hit] holds of a byte and the two bytes before it; [a] and [b]
    count as the two bytes before [z]. *)
Definition first_hit (hit : Z -> Z -> Z -> bool) (a b : Z) (z : list Z) : Prop :=
  z <> [] /\ forall i, (i < length z)%nat ->
    hit (nth i (a :: b :: z) 0) (nth (i + 1) (a :: b :: z) 0) (nth (i + 2) (a :: b :: z) 0) = (i =? length z - 1)%nat.

(** ** avf *)
(** the size of the board: three standard levels, or explicit *)
Definition avf_size (level : Z) (dims : list Z) (height width : nat) (mines : Z) : Prop :=
  (level = 3 /\ dims = [] /\ height = 8%nat /\ width = 8%nat /\ mines = 10) \/
  (level = 4 /\ dims = [] /\ height = 16%nat /\ width = 16%nat /\ mines = 40) \/
  (level = 5 /\ dims = [] /\ height = 16%nat /\ width = 30%nat /\ mines = 99) \/
  (level = 6 /\ exists w h m1 m2, dims = [w; h; m1; m2] /\ height = (Z.to_nat h + 1)%nat /\ width = (Z.to_nat w + 1)%nat /\ mines = m1 * 256 + m2).
(** each mine: row and column, counted from 1 *)
Definition avf_mines (l : list pos) : list Z := flat_map (fun p => [Z.of_nat (fst p) + 1; Z.of_nat (snd p) + 1]) l.
(** "[", a digit 0..3, "|" *)
Definition avf_mark (a b c : Z) : bool := (a =? 91) && (48 <=? b) && (b <=? 51) && (c =? 124).
(** "|B" *)
Definition avf_mark_B (_ b c : Z) : bool := (b =? 124) && (c =? 66).
(** a byte 1 after a byte 0 or 1: bytes 1 and 2 of the first event *)
Definition avf_mark_event (_ b c : Z) : bool := (c =? 1) && (b <=? 1).
Definition avf_codes : list (Z * event) :=
  [(1, e_mv); (3, e_lc); (5, e_lr); (9, e_rc); (17, e_rr); (33, e_mc); (65, e_mr); (145, e_rr); (193, e_mr); (11, e_other); (21, e_lr)].
(** an event of 8 bytes: code, x, seconds, x, hundredths, y, seconds, y *)
Definition avf_record (r : list Z) (e : vev) : Prop :=
  exists k c x1 s0 x0 hs y1 s1 y0, r = [c; x1; s0; x0; hs; y1; s1; y0] /\ In (c, k) avf_codes /\
    e = VEv k ((s1 * 256 + s0 - 1) * 1000 + hs * 10) (x1 * 256 + x0) (y1 * 256 + y0).
(** the eight bytes after the last event *)
Definition avf_last (r : list Z) : Prop := length r = 8%nat /\ nth 2 r 0 = 0 /\ nth 6 r 0 = 0.
(** "S" ... "k" ... "i" ... "n" ... ":" ... CR *)
Definition avf_skin (bs : list Z) : Prop := exists a b c d e f,
  bs = (a ++ [83]) ++ (b ++ [107]) ++ (c ++ [105]) ++ (d ++ [110]) ++ (e ++ [58]) ++ f ++ [13] /\
  ~ In 83 a /\ ~ In 107 b /\ ~ In 105 c /\ ~ In 110 d /\ ~ In 58 e /\ ~ In 13 f.
(** a decimal number without sign that fits into 64 bits *)
Definition decimal (l : list Z) (v : Z) : Prop :=
  l <> [] /\ Forall (fun c => 48 <= c <= 57) l /\ v = fold_left (fun a c => a * 10 + (c - 48)) l 0 /\ v < 2 ^ 64.
Definition usize_text (l : list Z) (v : Z) : Prop := decimal l v \/ exists l', l = 43 :: l' /\ decimal l' v.

(** An avf file and what it says. [rtime_of]: the milliseconds that a decimal text stands for, less one
    second (texts with a decimal comma are read like those with a point). *)
Record avf_contents : Type := Avf {
  a_level : Z; a_height : nat; a_width : nat; a_count : Z; a_mines : list pos;
  a_bbbv : Z; a_rtime : Z; a_start : list Z; a_end : list Z; a_player : list Z; a_events : list vev }.
Definition avf_file (rtime_of : list Z -> option Z) (file : list Z) (a : avf_contents) : Prop :=
  exists head dims upto_mark upto_B bb tt upto_event b0 b1 five recs last skin,
    file = head ++ [a_level a] ++ dims ++ avf_mines (a_mines a) ++ upto_mark ++ (a_start a ++ [124]) ++ (a_end a ++ [124]) ++
           upto_B ++ (bb ++ [84]) ++ (tt ++ [93]) ++ upto_event ++ five ++ (concat recs ++ last) ++ skin ++ (a_player a ++ [13]) /\
    length head = 5%nat /\
    avf_size (a_level a) dims (a_height a) (a_width a) (a_count a) /\
    length (a_mines a) = Z.to_nat (a_count a) /\
    first_hit avf_mark 0 0 upto_mark /\
    ~ In 124 (a_start a) /\ ~ In 124 (a_end a) /\
    first_hit avf_mark_B 0 124 upto_B /\
    ~ In 84 bb /\ usize_text bb (a_bbbv a) /\
    ~ In 93 tt /\ rtime_of (map (fun c => if c =? 44 then 46 else c) tt) = Some (a_rtime a) /\
    first_hit avf_mark_event 0 0 upto_event /\
    b0 = nth (length upto_event - 1) (0 :: 0 :: upto_event) 0 /\ b1 = nth (length upto_event) (0 :: 0 :: upto_event) 0 /\
    length five = 5%nat /\ Forall (fun r => ~ avf_last r) recs /\ avf_last last /\
    Forall2 avf_record ((b0 :: b1 :: 1 :: five) :: recs) (a_events a) /\
    avf_skin skin /\ ~ In 13 (a_player a).

(** ** rmv *)
(** "*rmv", version 1, and the sizes of the result string, the version, the pre-flags and the properties *)
Definition rmv_head (result version preflags properties : Z) (bs : list Z) : Prop := exists j1 j2,
  bs = [42; 114; 109; 118; 0; 1] ++ j1 ++ be16 result ++ be16 version ++ j2 ++ be16 preflags ++ be16 properties /\
  length j1 = 4%nat /\ length j2 = 4%nat /\ u16 result /\ u16 version /\ u16 preflags /\ u16 properties.
(** the result string: up to 35 characters it says nothing, a longer one has the 3BV and the start time at its end *)
Definition rmv_info (result : Z) (bs : list Z) (bbbv : Z) (start : list Z) : Prop :=
  (35 < result /\ exists j s k, bs = j ++ s ++ k ++ start /\ length j = Z.to_nat (result - 32) /\ length s = 3%nat /\ length k = 16%nat /\
     length start = 10%nat /\ decimal (filter (fun c => (48 <=? c) && (c <=? 57)) s) bbbv) \/
  (3 <= result <= 35 /\ length bs = Z.to_nat (result - 3) /\ bbbv = 0 /\ start = []).
(** a string with its length in front, if it is there *)
Definition counted (s : list Z) : list Z := Z.of_nat (length s) :: s.
Definition rmv_text (there : bool) (bs s : list Z) : Prop := if there then bs = counted s else bs = [] /\ s = [].
Definition rmv_strings (result version : Z) (bs : list Z) (bbbv : Z) (start player country : list Z) : Prop :=
  exists j7 info jv n b1 b2 nick b3 b4 token,
  bs = j7 ++ info ++ jv ++ be16 n ++ b1 ++ b2 ++ b3 ++ b4 /\ length j7 = 7%nat /\ rmv_info result info bbbv start /\
  length jv = (Z.to_nat version + 2)%nat /\ u16 n /\
  rmv_text (0 <? n) b1 player /\ rmv_text (1 <? n) b2 nick /\ rmv_text (2 <? n) b3 country /\ rmv_text (3 <? n) b4 token.
(** each mine: column and row, counted from 0 *)
Definition rmv_mines (l : list pos) : list Z := flat_map (fun p => [Z.of_nat (snd p); Z.of_nat (fst p)]) l.
(** the flags set before the game: the code takes the second byte for x and the first one for y *)
Definition rmv_flags (preflags : Z) (bs : list Z) (es : list vev) : Prop :=
  (preflags = 0 /\ bs = [] /\ es = []) \/
  (0 < preflags /\ exists l : list (Z * Z), u16 (Z.of_nat (length l)) /\ bs = be16 (Z.of_nat (length l)) ++ flat_map (fun cd => [fst cd; snd cd]) l /\
     es = map (fun cd => VEv e_pf 0 (snd cd * 16) (fst cd * 16)) l).
Definition rmv_codes : list (Z * event) := [(1, e_mv); (2, e_lc); (3, e_lr); (4, e_rc); (5, e_rr); (6, e_mc); (7, e_mr)].
(** pixels relative to the window; everything outside of the board counts as its lower right corner *)
Definition rmv_at (width height : nat) (x y : Z) : Z * Z :=
  let X := (x - 12) mod 65536 in
  let Y := (y - 56) mod 65536 in
  if (X <? 16 * Z.of_nat width) && (Y <? 16 * Z.of_nat height) then (X, Y) else (16 * Z.of_nat width, 16 * Z.of_nat height).
(** the events; the first one has a left press before it that the file does not say *)
Inductive rmv_events (width height : nat) : bool -> list Z -> list vev -> Prop :=
| rmv_end : forall first c, 15 <= c <= 17 -> rmv_events width height first [c] []
| rmv_pad4 : forall first j r es, length j = 4%nat -> rmv_events width height first r es -> rmv_events width height first (0 :: j ++ r) es
| rmv_pad2 : forall first c j r es, 9 <= c <= 14 \/ 18 <= c <= 27 -> length j = 2%nat -> rmv_events width height first r es -> rmv_events width height first (c :: j ++ r) es
| rmv_next : forall (first : bool) c k t pad x y X Y r es, In (c, k) rmv_codes -> u24 t -> u16 x -> u16 y -> rmv_at width height x y = (X, Y) ->
    rmv_events width height false r es ->
    rmv_events width height first (c :: be24 t ++ [pad] ++ be16 x ++ be16 y ++ r) ((if first then [VEv e_lc t X Y] else []) ++ VEv k t X Y :: es).

Record rmv_contents : Type := Rmv {
  r_level : Z; r_mode : Z; r_nf : bool; r_height : nat; r_width : nat; r_mines : list pos;
  r_bbbv : Z; r_rtime : Z; r_start : list Z; r_player : list Z; r_country : list Z; r_events : list vev }.
Definition rmv_file (file : list Z) (a : rmv_contents) : Prop :=
  exists result version preflags properties head strings j4 count flags fs j1 nf level jp bes es,
    file = head ++ strings ++ j4 ++ [Z.of_nat (r_width a); Z.of_nat (r_height a)] ++ be16 count ++ rmv_mines (r_mines a) ++ flags ++
           [j1; nf; r_mode a; level] ++ jp ++ bes /\
    rmv_head result version preflags properties head /\
    rmv_strings result version strings (r_bbbv a) (r_start a) (r_player a) (r_country a) /\
    length j4 = 4%nat /\ u16 count /\ length (r_mines a) = Z.to_nat count /\ (1 <= r_height a)%nat /\
    rmv_flags preflags flags fs /\
    r_nf a = (nf =? 1) /\ level < 253 /\ r_level a = level + 3 /\
    4 <= properties /\ length jp = Z.to_nat (properties - 4) /\
    rmv_events (r_width a) (r_height a) true bes es /\
    r_events a = fs ++ es /\ r_events a <> [] /\ r_rtime a = ve_ms (last (r_events a) (VEv e_mv 0 0 0)).
(** the beginning of a file that makes the parser panic *)
Definition rmv_crash (bs : list Z) : Prop :=
  exists result version preflags properties head, rmv_head result version preflags properties head /\
    (result < 3 /\ bs = head \/
     exists strings bbbv start player country j4 w h count, rmv_strings result version strings bbbv start player country /\ length j4 = 4%nat /\ u16 count /\
       (h = 0 /\ count = 0 /\ bs = head ++ strings ++ j4 ++ [w; h] ++ be16 count \/
        exists mines flags fs j1 nf mode level,
          1 <= h /\ length mines = Z.to_nat count /\ Forall (inb (Z.to_nat h) (Z.to_nat w)) mines /\ rmv_flags preflags flags fs /\
          let front := head ++ strings ++ j4 ++ [w; h] ++ be16 count ++ rmv_mines mines ++ flags ++ [j1; nf; mode; level] in
          (253 <= level /\ bs = front \/ properties < 4 /\ bs = front \/
           level < 253 /\ 4 <= properties /\ fs = [] /\ exists jp bes, length jp = Z.to_nat (properties - 4) /\ rmv_events (Z.to_nat w) (Z.to_nat h) true bes [] /\ bs = front ++ jp ++ bes))).

(** ** mvf (Minesweeper Clone 0.97) *)
(** each mine: column and row, counted from 1 *)
Definition mvf_mines (l : list pos) : list Z := flat_map (fun p => [Z.of_nat (snd p) + 1; Z.of_nat (fst p) + 1]) l.
(** the first eight characters of a number up to 10^8 written with at least eight digits *)
Definition eight (n : Z) : list Z :=
  if n =? 10 ^ 8 then [1; 0; 0; 0; 0; 0; 0; 0] else map (fun i => n / 10 ^ (7 - Z.of_nat i) mod 10) (seq 0 8).
(** the key: five such numbers. The 40 bits of a record are read in this order: first those at the places
    where the key has a 0, then those at the 1s, ... *)
Definition mvf_key (numbers : list Z) : list Z := concat (map eight numbers).
Definition key_order (key : list Z) : list nat := flat_map (fun d => filter (fun j => nth j key 0 =? d) (seq 0 40)) [0; 1; 2; 3; 4; 5; 6; 7; 8; 9].
Definition mvf_bit (key r : list Z) (k : nat) : bool :=
  let j := nth k (key_order key) 0%nat in Z.testbit (nth (j / 8) r 0) (Z.of_nat (j mod 8)).
(** a number in the bits from [start] on, the least one first *)
Definition mvf_number (key r : list Z) (start n : nat) : Z := fold_right (fun k acc => Z.b2z (mvf_bit key r k) + 2 * acc) 0 (seq start n).
Record mvf_rec : Type := MRec { m_right : bool; m_mid : bool; m_left : bool; m_y : Z; m_x : Z; m_hs : Z; m_sec : Z }.
Definition mvf_decode (key r : list Z) : mvf_rec :=
  MRec (mvf_bit key r 0) (mvf_bit key r 1) (mvf_bit key r 2) (mvf_number key r 3 9) (mvf_number key r 12 9) (mvf_number key r 21 7) (mvf_number key r 28 10).
Definition mvf_ev (m : mvf_rec) (k : event) : vev := VEv k (m_sec m * 1000 + m_hs m * 10) (m_x m) (m_y m).
Definition mvf_first (m : mvf_rec) : event := if m_mid m then e_mc else if m_right m then e_rc else if m_left m then e_lc else e_mv.
(** what happened between a record [p] and the next one [m]; [px], [py]: the place before *)
Definition mvf_between (p : mvf_rec) (px py : Z) (m : mvf_rec) : list event :=
  (if (m_x m =? px) && (m_y m =? py) then [] else [e_mv]) ++
  (if m_left m && negb (m_left p) then [e_lc] else []) ++ (if m_right m && negb (m_right p) then [e_rc] else []) ++ (if m_mid m && negb (m_mid p) then [e_mc] else []) ++
  (if negb (m_left m) && m_left p then [e_lr] else []) ++ (if negb (m_right m) && m_right p then [e_rr] else []) ++ (if negb (m_mid m) && m_mid p then [e_mr] else []).
Fixpoint mvf_story (p : mvf_rec) (px py : Z) (l : list mvf_rec) : list vev :=
  match l with [] => [] | m :: l' => map (mvf_ev m) (mvf_between p px py m) ++ mvf_story m (m_x m) (m_y m) l' end.
(** the second record is compared with the place (0, 0), not with the place of the first *)
Definition mvf_events (l : list mvf_rec) : list vev := match l with [] => [] | m :: l' => mvf_ev m (mvf_first m) :: mvf_story m 0 0 l' end.
Definition mvf_mode (m : Z) : Z := if m =? 1 then 0 else if m =? 2 then 3 else if m =? 3 then 1 else 2.

Record mvf_contents : Type := Mvf {
  f_level : Z; f_mode : Z; f_height : nat; f_width : nat; f_mines : list pos;
  f_bbbv : Z; f_rtime : Z; f_player : list Z; f_records : list mvf_rec }.
(** the mark of version 0.97 *)
Definition mvf_mark (bs : list Z) : Prop := exists j1 j2, bs = [17; 77] ++ j1 ++ [53] ++ j2 /\ length j1 = 25%nat /\ length j2 = 46%nat.
Definition mvf_file (numbers : Z -> list Z) (file : list Z) (a : mvf_contents) : Prop :=
  exists mark date level mode sec hs j9 count leading recs,
    file = mark ++ date ++ [level; mode] ++ be16 sec ++ [hs] ++ be16 (f_bbbv a) ++ j9 ++ [Z.of_nat (f_width a); Z.of_nat (f_height a)] ++ be16 count ++
           mvf_mines (f_mines a) ++ counted (f_player a) ++ be16 leading ++ be24 (Z.of_nat (length recs)) ++ concat recs /\
    mvf_mark mark /\ length date = 7%nat /\ level < 254 /\ f_level a = level + 2 /\ f_mode a = mvf_mode mode /\
    u16 sec /\ f_rtime a = sec * 1000 + hs * 10 /\ u16 (f_bbbv a) /\ length j9 = 9%nat /\
    (1 <= f_height a)%nat /\ u16 count /\ length (f_mines a) = Z.to_nat count /\ u16 leading /\
    u24 (Z.of_nat (length recs)) /\ recs <> [] /\ Forall (fun r => length r = 5%nat) recs /\
    f_records a = map (mvf_decode (mvf_key (numbers leading))) recs.
(** files of other versions *)
Definition mvf_other (bs : list Z) : Prop :=
  (exists c d, bs = [c; d] /\ ~ (c = 17 /\ d = 77)) \/ (exists j c, bs = [17; 77] ++ j ++ [c] /\ length j = 25%nat /\ c <> 53).
(** the beginning of a file that makes the parser panic *)
Definition mvf_crash (bs : list Z) : Prop :=
  exists mark date level, mvf_mark mark /\ length date = 7%nat /\
    (254 <= level /\ bs = mark ++ date ++ [level] \/
     exists mode sec hs bbbv j9 w h count, u16 sec /\ u16 bbbv /\ length j9 = 9%nat /\ u16 count /\ level < 254 /\
       let front := mark ++ date ++ [level; mode] ++ be16 sec ++ [hs] ++ be16 bbbv ++ j9 ++ [w; h] ++ be16 count in
       (h = 0 /\ count = 0 /\ bs = front \/
        (exists ok x y, Forall (inb (Z.to_nat h) (Z.to_nat w)) ok /\ (length ok < Z.to_nat count)%nat /\ ~ (1 <= x <= w /\ 1 <= y <= h) /\ bs = front ++ mvf_mines ok ++ [x; y]) \/
        (exists mines player leading r, 1 <= h /\ Forall (inb (Z.to_nat h) (Z.to_nat w)) mines /\ length mines = Z.to_nat count /\ u16 leading /\ length r = 5%nat /\
           bs = front ++ mvf_mines mines ++ counted player ++ be16 leading ++ be24 0 ++ r))).
