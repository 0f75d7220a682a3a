(** * SaveFile: model of [save_to_evf_file] (base_video.rs 1887-1914) and [is_valid]
    (base_video.rs 1916-1961). File names and file contents are byte strings. *)
From Coq Require Import DecimalNat.
From Verif Require Import Base MineBoard Evf BaseVideo.
Open Scope Z_scope.

(** ** A file system: the files that exist, with their contents. I/O errors are not modelled. *)
Definition fs : Type := list (list Z * list Z).
Definition bytes_eqb : list Z -> list Z -> bool := fix eq a b :=
  match a, b with
  | [], [] => true
  | x :: a, y :: b => (x =? y) && eq a b
  | _, _ => false
  end.
(** [Path::exists] *)
Definition file_exists (d : fs) (name : list Z) : bool := existsb (fun f => bytes_eqb (fst f) name) d.
(** [fs::write]: creates the file, or replaces its content *)
Definition write_file (d : fs) (name content : list Z) : fs :=
  if file_exists d name
  then map (fun f => if bytes_eqb (fst f) name then (fst f, content) else f) d
  else d ++ [(name, content)].

(** [format!("{}", id)] as ASCII codes *)
Fixpoint ascii_of (u : Decimal.uint) : list Z :=
  match u with
  | Decimal.Nil => []
  | Decimal.D0 u => 48 :: ascii_of u | Decimal.D1 u => 49 :: ascii_of u
  | Decimal.D2 u => 50 :: ascii_of u | Decimal.D3 u => 51 :: ascii_of u
  | Decimal.D4 u => 52 :: ascii_of u | Decimal.D5 u => 53 :: ascii_of u
  | Decimal.D6 u => 54 :: ascii_of u | Decimal.D7 u => 55 :: ascii_of u
  | Decimal.D8 u => 56 :: ascii_of u | Decimal.D9 u => 57 :: ascii_of u
  end.
Definition show (n : nat) : list Z := ascii_of (Nat.to_uint n).
(** ".evf" *)
Definition dot_evf : list Z := [46; 101; 118; 102].

(** base_video.rs 1899-1911: the loop over [id]. The fuel is proved sufficient; [id] is an unbounded
    number here (i32 in Rust). *)
Fixpoint save_loop (fuel : nat) (d : fs) (file_name raw : list Z) (id : nat) : R fs :=
  match fuel with
  | O => OutOfFuel
  | S f =>
      let format_name := file_name ++ [40] ++ show id ++ [41] ++ dot_evf in   (* "({}).evf" *)
      if negb (file_exists d format_name) then Ok (write_file d format_name raw)
      else save_loop f d file_name raw (S id)
  end.
(** base_video.rs 1888-1914 *)
Definition save_to_evf_file (d : fs) (v : bv) (file_name : list Z) : R fs :=
  if negb (file_exists d (file_name ++ dot_evf))
  then Ok (write_file d (file_name ++ dot_evf) (b_raw v))
  else save_loop (S (S (length d))) d file_name (b_raw v) 2.

(** ** [is_valid] *)
(** "Arbiter", "Viennasweeper", "元3.2" and "元3.1.7" in UTF-8 *)
Definition sw_arbiter : list Z := [65; 114; 98; 105; 116; 101; 114].
Definition sw_vienna : list Z := [86; 105; 101; 110; 110; 97; 115; 119; 101; 101; 112; 101; 114].
Definition sw_yuan32 : list Z := [229; 133; 131; 51; 46; 50].
Definition sw_yuan317 : list Z := [229; 133; 131; 51; 46; 49; 46; 55].

(** [(self.start_time[i] - 48) as u64] on u8 *)
Definition digit_at (s : list Z) (i : nat) : R Z :=
  let* c := vget s i in if 48 <=? c then Ok (c - 48) else Panic.
(** base_video.rs 1926-1935: ten digits, most significant first *)
Definition vienna_time (s : list Z) : R Z :=
  foldM (fun acc i => let* d := digit_at s i in Ok (acc * 10 + d)) (seq 0 10) 0.

(** base_video.rs 1921-1961. [len as f64 / bbbv as f64 < 10.0] is written as [len < 10 * bbbv] (the
    same for bbbv < 2^49, also for bbbv = 0, where the quotient is infinite or NaN). *)
Definition is_valid (v : bv) : R nat :=
  let f := b_meta v in
  let finish :=
    if Z.of_nat (length (b_rec v)) <? 10 * v_bbbv f then Ok 3%nat
    else if v_completed f then Ok 0%nat else Ok 1%nat in
  if bytes_eqb (v_software f) sw_arbiter then finish
  else if bytes_eqb (v_software f) sw_vienna then
    let* t := vienna_time (v_start f) in
    if 1682265600 <? t then Ok 1%nat else finish
  else if bytes_eqb (v_software f) sw_yuan32 || bytes_eqb (v_software f) sw_yuan317 then
    if forallb (fun e => e =? nth 0 (v_checksum f) 0) (v_checksum f) then Ok 1%nat
    else if negb (v_fair f) then Ok 1%nat
    else finish
  else Ok 1%nat.
