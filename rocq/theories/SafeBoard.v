(** * SafeBoard: model of base/src/safe_board.rs.

    32-bit arithmetic is explicit here: [i32 z] panics when [z] leaves the range of i32 (debug build;
    the theorems show it never happens). The random draws of [encode] are arguments. *)
From Verif Require Import Base Matrix.
Open Scope Z_scope.

Definition I32_MAX : Z := 2147483647.
Definition I32_MIN : Z := -2147483648.
Definition i32 (z : Z) : R Z := if (I32_MIN <=? z) && (z <=? I32_MAX) then Ok z else Panic.

(** safe_board.rs 22-24: the code table. *)
Definition code_table : list Z := [7; 1; 3; 14; 16; 17; 9; 11; 12; 5; 6; 13; 19; 19; 18; 15; 4; 8; 2; 0].
(** safe_board.rs 76-78: the table of every row. *)
Definition row_table : list Z := [16; -2; 15; -1; 13; 6; 7; -3; 14; 3; 9; 4; 5; 8; 0; 12; 1; 2; 11; 10].

(** [t[i as usize]] with an i32 index: a negative index wraps to a huge one. *)
Definition zget (t : list Z) (i : Z) : R Z := if i <? 0 then Panic else vget t (Z.to_nat i).

(** One draw of [encode]: the two masks and the multiple of 20. *)
Notation draw := (Z * Z * Z)%type.

(** safe_board.rs 19-27 [encode]. The draw (a, b, k) comes from the three [gen_range] calls. *)
Definition encode (v : Z) (d : draw) : R (Z * Z * Z) :=
  let '(a, b, k) := d in
  let* i := i32 (v + 3) in
  let* code := zget code_table i in
  let* m := i32 (k * 20) in
  let* c := i32 (code + m) in
  let* c := i32 (c - a) in
  let* c := i32 (c - b) in
  Ok (a, b, c).

(** safe_board.rs 30-36 [decode]. Rust [%] on i32 is [Z.rem]. *)
Definition decode (a b c : Z) : R Z :=
  let* s := i32 (a + b) in
  let* s := i32 (s + c) in
  let t := Z.rem s 20 in
  if t <? 0 then i32 (t + 20) else Ok t.

(** safe_board.rs 41-48 [SafeBoardRow]; the constant [table] field is [row_table]. *)
Record srow := SRow { value_1 : list Z; value_2 : list Z; value_3 : list Z; r_counter : nat }.
(** safe_board.rs 53-57 [SafeBoard] *)
Record sboard := SBoard { s_value : list srow; s_counter : nat }.

(** safe_board.rs 61-82 [SafeBoardRow::new]. [rnd] holds the draws; [OutOfFuel] when it is too short
    (never for an endless random source). *)
Fixpoint row_new_loop (v : list Z) (rnd : list draw) (r : srow) : R (srow * list draw) :=
  match v with
  | [] => Ok (r, rnd)
  | i :: v =>
      match rnd with
      | [] => OutOfFuel
      | d :: rnd =>
          let* (a, b, c) := encode i d in
          row_new_loop v rnd (SRow (value_1 r ++ [a]) (value_2 r ++ [b]) (value_3 r ++ [c]) (r_counter r))
      end
  end.
Definition row_new (v : list Z) (rnd : list draw) : R (srow * list draw) := row_new_loop v rnd (SRow [] [] [] 0).

(** safe_board.rs 124-134 [index] of a row *)
Definition row_index (r : srow) (i : nat) : R Z :=
  let* a := vget (value_1 r) i in
  let* b := vget (value_2 r) i in
  let* c := vget (value_3 r) i in
  let* t := decode a b c in
  zget row_table t.

(** safe_board.rs 83-91 [into_vec] *)
Definition row_into_vec (r : srow) : R (list Z) := mapM (row_index r) (seq 0 (length (value_1 r))).

(** safe_board.rs 160-174 [next] of a row *)
Definition row_next (r : srow) : R (option Z * srow) :=
  if (r_counter r <? length (value_1 r))%nat then
    let* a := vget (value_1 r) (r_counter r) in
    let* b := vget (value_2 r) (r_counter r) in
    let* c := vget (value_3 r) (r_counter r) in
    let* t := decode a b c in
    Ok (Some t, SRow (value_1 r) (value_2 r) (value_3 r) (S (r_counter r)))
  else Ok (None, r).

(** a [for x in row] loop: [next] until [None] *)
Fixpoint row_iter (fuel : nat) (r : srow) : R (list Z) :=
  match fuel with
  | O => OutOfFuel
  | S f =>
      let* (o, r) := row_next r in
      match o with
      | None => Ok []
      | Some v => let* l := row_iter f r in Ok (v :: l)
      end
  end.

(** safe_board.rs 96-105 [SafeBoard::new]; 120-126 [set] stores the same rows. *)
Fixpoint rows_new (v : board) (rnd : list draw) : R (list srow * list draw) :=
  match v with
  | [] => Ok ([], rnd)
  | row :: v =>
      let* (r, rnd) := row_new row rnd in
      let* (rs, rnd) := rows_new v rnd in
      Ok (r :: rs, rnd)
  end.
Definition sboard_new (v : board) (rnd : list draw) : R (sboard * list draw) :=
  let* (rs, rnd) := rows_new v rnd in Ok (SBoard rs 0, rnd).
Definition sboard_set (s : sboard) (v : board) (rnd : list draw) : R (sboard * list draw) :=
  let* (rs, rnd) := rows_new v rnd in Ok (SBoard rs (s_counter s), rnd).

(** safe_board.rs 247-264 [get_row], [get_column] (the [len] of a row is [value_1.len()], 176-180) *)
Definition s_get_row (s : sboard) : nat := length (s_value s).
Definition s_get_column (s : sboard) : R nat := let* r := vget (s_value s) 0 in Ok (length (value_1 r)).

(** safe_board.rs 106-119 [into_vec_vec] *)
Definition sboard_into (s : sboard) : R board :=
  mapM (fun r => let* c := s_get_column s in mapM (row_index r) (seq 0 c)) (s_value s).

(** [board[i][j]] on a SafeBoard (201-206 and 124-134) *)
Definition sboard_index (s : sboard) (i j : nat) : R Z := let* r := vget (s_value s) i in row_index r j.

(** safe_board.rs 182-194 [next] of a board: the rows are cloned out *)
Definition sboard_next (s : sboard) : option srow * sboard :=
  match nth_error (s_value s) (s_counter s) with
  | Some r => (Some r, SBoard (s_value s) (S (s_counter s)))
  | None => (None, s)
  end.
