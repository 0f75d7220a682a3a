(** * MineBoard: model of [MinesweeperBoard], base/src/videos/minesweeper_board.rs.

    The game state machine. [&mut self] methods return the new state together with their Rust
    result: [Some n] is [Ok(n)], [None] is [Err(())] (the state reached when the error is returned
    is kept, as in Rust). A panic is [Panic]. Additions to [usize] counters are unbounded here
    (overflow after 2^64 clicks is not modelled); subtractions that would go below zero panic
    (debug build). The generic parameter [T] is [Vec<Vec<i32>>]. *)
From Verif Require Import Base LayMine Metrics Refresh.
Open Scope Z_scope.

(** minesweeper_board.rs 852-870 [MouseState] *)
Inductive mouse_state : Type :=
| UpUp | UpDown | UpDownNotFlag | DownUp | Chording | ChordingNotFlag | DownUpAfterChording
| Undefined.

(** minesweeper_board.rs 872-882 [GameBoardState] *)
Inductive game_state : Type := Ready | PreFlaging | Playing | Loss | Win | Display.

(** The event names accepted by [step] (the [&str] argument); [e_other] is any other string. *)
Inductive event : Type :=
| e_mv | e_lc | e_lr | e_rc | e_rr | e_mc | e_mr | e_cc | e_pf | e_l | e_r | e_m | e_crl | e_crr
| e_other.

(** minesweeper_board.rs 38-64 [MinesweeperBoard]. Fields: m_board = board, m_gb = game_board,
    m_flaged = flagedList (newest first), m_solved = bbbv_solved, m_px/m_py = pointer_x/pointer_y,
    m_preflag = pre_flag_num, m_mid = middle_hold. *)
Record mb : Type := MB {
  m_board : board;
  m_gb : board;
  m_flaged : list pos;
  m_left : nat;
  m_right : nat;
  m_double : nat;
  m_ce : nat;
  m_flag : nat;
  m_solved : nat;
  m_row : nat;
  m_column : nat;
  m_mouse : mouse_state;
  m_state : game_state;
  m_px : nat;
  m_py : nat;
  m_preflag : nat;
  m_mid : bool
}.

Definition w_gb (s : mb) (v : board) : mb :=
  MB (m_board s) v (m_flaged s) (m_left s) (m_right s) (m_double s) (m_ce s) (m_flag s) (m_solved s) (m_row s) (m_column s) (m_mouse s) (m_state s) (m_px s) (m_py s) (m_preflag s) (m_mid s).
Definition w_flaged (s : mb) (v : list pos) : mb :=
  MB (m_board s) (m_gb s) v (m_left s) (m_right s) (m_double s) (m_ce s) (m_flag s) (m_solved s) (m_row s) (m_column s) (m_mouse s) (m_state s) (m_px s) (m_py s) (m_preflag s) (m_mid s).
Definition w_left (s : mb) (v : nat) : mb :=
  MB (m_board s) (m_gb s) (m_flaged s) v (m_right s) (m_double s) (m_ce s) (m_flag s) (m_solved s) (m_row s) (m_column s) (m_mouse s) (m_state s) (m_px s) (m_py s) (m_preflag s) (m_mid s).
Definition w_right (s : mb) (v : nat) : mb :=
  MB (m_board s) (m_gb s) (m_flaged s) (m_left s) v (m_double s) (m_ce s) (m_flag s) (m_solved s) (m_row s) (m_column s) (m_mouse s) (m_state s) (m_px s) (m_py s) (m_preflag s) (m_mid s).
Definition w_double (s : mb) (v : nat) : mb :=
  MB (m_board s) (m_gb s) (m_flaged s) (m_left s) (m_right s) v (m_ce s) (m_flag s) (m_solved s) (m_row s) (m_column s) (m_mouse s) (m_state s) (m_px s) (m_py s) (m_preflag s) (m_mid s).
Definition w_ce (s : mb) (v : nat) : mb :=
  MB (m_board s) (m_gb s) (m_flaged s) (m_left s) (m_right s) (m_double s) v (m_flag s) (m_solved s) (m_row s) (m_column s) (m_mouse s) (m_state s) (m_px s) (m_py s) (m_preflag s) (m_mid s).
Definition w_flag (s : mb) (v : nat) : mb :=
  MB (m_board s) (m_gb s) (m_flaged s) (m_left s) (m_right s) (m_double s) (m_ce s) v (m_solved s) (m_row s) (m_column s) (m_mouse s) (m_state s) (m_px s) (m_py s) (m_preflag s) (m_mid s).
Definition w_solved (s : mb) (v : nat) : mb :=
  MB (m_board s) (m_gb s) (m_flaged s) (m_left s) (m_right s) (m_double s) (m_ce s) (m_flag s) v (m_row s) (m_column s) (m_mouse s) (m_state s) (m_px s) (m_py s) (m_preflag s) (m_mid s).
Definition w_mouse (s : mb) (v : mouse_state) : mb :=
  MB (m_board s) (m_gb s) (m_flaged s) (m_left s) (m_right s) (m_double s) (m_ce s) (m_flag s) (m_solved s) (m_row s) (m_column s) v (m_state s) (m_px s) (m_py s) (m_preflag s) (m_mid s).
Definition w_state (s : mb) (v : game_state) : mb :=
  MB (m_board s) (m_gb s) (m_flaged s) (m_left s) (m_right s) (m_double s) (m_ce s) (m_flag s) (m_solved s) (m_row s) (m_column s) (m_mouse s) v (m_px s) (m_py s) (m_preflag s) (m_mid s).
Definition w_px (s : mb) (v : nat) : mb :=
  MB (m_board s) (m_gb s) (m_flaged s) (m_left s) (m_right s) (m_double s) (m_ce s) (m_flag s) (m_solved s) (m_row s) (m_column s) (m_mouse s) (m_state s) v (m_py s) (m_preflag s) (m_mid s).
Definition w_py (s : mb) (v : nat) : mb :=
  MB (m_board s) (m_gb s) (m_flaged s) (m_left s) (m_right s) (m_double s) (m_ce s) (m_flag s) (m_solved s) (m_row s) (m_column s) (m_mouse s) (m_state s) (m_px s) v (m_preflag s) (m_mid s).
Definition w_preflag (s : mb) (v : nat) : mb :=
  MB (m_board s) (m_gb s) (m_flaged s) (m_left s) (m_right s) (m_double s) (m_ce s) (m_flag s) (m_solved s) (m_row s) (m_column s) (m_mouse s) (m_state s) (m_px s) (m_py s) v (m_mid s).
Definition w_mid (s : mb) (v : bool) : mb :=
  MB (m_board s) (m_gb s) (m_flaged s) (m_left s) (m_right s) (m_double s) (m_ce s) (m_flag s) (m_solved s) (m_row s) (m_column s) (m_mouse s) (m_state s) (m_px s) (m_py s) (m_preflag s) v.

(** minesweeper_board.rs 112-125 [new] (with the fields of [default], 66-87). *)
Definition mb_new (b : board) : R mb :=
  let row := get_row b in
  let* column := get_column b in
  Ok (MB b (mkboard row column 10) [] 0 0 0 0 0 0 row column UpUp Ready 0 0 0 false).

(** minesweeper_board.rs 127-143 [reset]: the board becomes all zeros; [pre_flag_num] and
    [middle_hold] are not touched. *)
Definition mb_reset (s : mb) : mb :=
  MB (mkboard (m_row s) (m_column s) 0) (mkboard (m_row s) (m_column s) 10) [] 0 0 0 0 0 0
     (m_row s) (m_column s) UpUp Ready 0 0 (m_preflag s) (m_mid s).

Definition outcome := option nat.

(** minesweeper_board.rs 811-842 [is_win]: the scan from the pointer. [None]: the end of the board
    was reached ([true]); [Some None]: returned [false] on a cell that shows a wrong number;
    [Some (Some p)]: returned [false] on a covered safe cell [p], where the pointer is left. *)
Fixpoint win_scan (b g : board) (l : list pos) : R (option (option pos)) :=
  match l with
  | [] => Ok None
  | (i, j) :: l' =>
      let* w := get g i j in
      let* bad := (if w <? 10 then let* v := get b i j in Ok (negb (w =? v)) else Ok false) in
      if bad then Ok (Some None)
      else
        let* stop := (if 10 <=? w then let* v := get b i j in Ok (negb (v =? -1)) else Ok false) in
        if stop then Ok (Some (Some (i, j))) else win_scan b g l'
  end.
(** 816-841: the rest of the pointer's row, then the following rows. *)
Definition win_order (row column px py : nat) : list pos :=
  map (fun j => (px, j)) (rng py column) ++ list_prod (rng (px + 1) row) (seq 0 column).
Definition is_win (s : mb) : R (mb * bool) :=
  let* r := win_scan (m_board s) (m_gb s) (win_order (m_row s) (m_column s) (m_px s) (m_py s)) in
  Ok (match r with
      | None => (s, true)
      | Some None => (s, false)
      | Some (Some (i, j)) => (w_py (w_px s i) j, false)
      end).

(** minesweeper_board.rs 354-381 [cell_is_op_completed]: returns the result and the updated mark
    board. The stack's top is the list head. The fuel is proved sufficient. *)
Fixpoint op_loop (fuel : nat) (row column : nat) (b g : board) (mark : list (list bool))
    (poses : list pos) : R (bool * list (list bool)) :=
  match poses with
  | [] => Ok (true, mark)
  | (i, j) :: poses' =>
      match fuel with
      | O => OutOfFuel
      | S f =>
          let* v := get b i j in
          if 0 <? v then op_loop f row column b g mark poses'
          else if v =? 0 then
            let* w := get g i j in
            if w =? 11 then Ok (false, mark)
            else
              let* mark := set mark i j true in
              let* st := foldM (fun st '(m, n) =>
                            if negb (i =? m)%nat || negb (j =? n)%nat then
                              let* k := get mark m n in
                              Ok (if negb k then (m, n) :: st else st)
                            else Ok st)
                          (zone row column i j) poses' in
              op_loop f row column b g mark st
          else op_loop f row column b g mark poses'
      end
  end.
Definition cell_is_op_completed (s : mb) (x y : nat) (mark : list (list bool))
  : R (bool * list (list bool)) :=
  op_loop (90 * (m_row s * m_column s) + 11) (m_row s) (m_column s) (m_board s) (m_gb s) mark
    [(x, y)].

(** minesweeper_board.rs 311-330 [cell_is_bbbv] *)
Definition cell_is_bbbv (s : mb) (x y : nat) : R bool :=
  let* v := get (m_board s) x y in
  if v <=? 0 then Ok false
  else
    let* hit := findM (fun '(i, j) => let* w := get (m_board s) i j in Ok (w =? 0))
                      (zone (m_row s) (m_column s) x y) in
    Ok (negb hit).

(** minesweeper_board.rs 333-352 [op_num_around_cell] *)
Definition op_num_around_cell (s : mb) (x y : nat) : R nat :=
  let* r := foldM (fun '(n, mark) '(i, j) =>
       let* w := get (m_gb s) i j in
       if w =? 10 then
         let* v := get (m_board s) i j in
         if v =? 0 then
           let* k := get mark i j in
           if negb k then
             let* r := cell_is_op_completed s i j mark in
             let '(c, mark) := r in
             Ok ((if c : bool then S n else n), mark)
           else Ok (n, mark)
         else Ok (n, mark)
       else Ok (n, mark))
    (zone (m_row s) (m_column s) x y) (0%nat, mkboard (m_row s) (m_column s) false) in
  Ok (fst r).

(** [if self.is_win() { self.game_board_state = Win }] (187-189, 200-202, 302-304) *)
Definition check_win (s : mb) : R mb :=
  let* r := is_win s in
  let '(s, w) := r in
  Ok (if w : bool then w_state s Win else s).

(** minesweeper_board.rs 167-206 [left_click] *)
Definition left_click (s : mb) (x y : nat) : R (mb * outcome) :=
  let s := w_left s (S (m_left s)) in
  let* w := get (m_gb s) x y in
  if negb (w =? 10) then Ok (s, Some 0%nat)
  else
    let* v := get (m_board s) x y in
    if v =? 0 then
      let* r := cell_is_op_completed s x y (mkboard (m_row s) (m_column s) false) in
      let s := if fst r : bool then w_solved s (S (m_solved s)) else s in
      let s := w_ce s (S (m_ce s)) in
      let* g := refresh_board (m_board s) (m_gb s) [(x, y)] in
      let s := w_gb s g in
      let* s := check_win s in
      Ok (s, Some 2%nat)
    else if v =? -1 then
      let* g := refresh_board (m_board s) (m_gb s) [(x, y)] in
      let s := w_gb s g in
      let s := w_state s Loss in
      Ok (s, Some 0%nat)
    else
      let* g := refresh_board (m_board s) (m_gb s) [(x, y)] in
      let s := w_gb s g in
      let* k := cell_is_bbbv s x y in
      let s := if k : bool then w_solved s (S (m_solved s)) else s in
      let s := w_ce s (S (m_ce s)) in
      let* s := check_win s in
      Ok (s, Some 2%nat).

(** minesweeper_board.rs 208-249 [right_click] *)
Definition right_click (s : mb) (x y : nat) : R (mb * outcome) :=
  let s := w_right s (S (m_right s)) in
  let* w := get (m_gb s) x y in
  if w <? 10 then Ok (s, Some 0%nat)
  else
    let* v := get (m_board s) x y in
    if negb (v =? -1) then
      if w =? 10 then
        let* g := set (m_gb s) x y 11 in
        let s := w_gb s g in
        Ok (w_flag s (S (m_flag s)), Some 1%nat)
      else if w =? 11 then
        let* g := set (m_gb s) x y 10 in
        let s := w_gb s g in
        let* f := usub (m_flag s) 1 in
        Ok (w_flag s f, Some 1%nat)
      else Ok (s, None)
    else
      if w =? 10 then
        let* g := set (m_gb s) x y 11 in
        let s := w_gb s g in
        let s := w_flag s (S (m_flag s)) in
        let s := if existsb (posb (x, y)) (m_flaged s) then s else w_ce s (S (m_ce s)) in
        Ok (w_flaged s ((x, y) :: m_flaged s), Some 1%nat)
      else if w =? 11 then
        let* g := set (m_gb s) x y 10 in
        let s := w_gb s g in
        let* f := usub (m_flag s) 1 in
        Ok (w_flag s f, Some 1%nat)
      else Ok (s, None).

(** minesweeper_board.rs 251-310 [chording_click]. The scan returns
    (chording_cells, flaged_num, surround3BV); [flag_chording_useful] holds iff
    [chording_cells] is not empty. *)
Definition chord_scan (s : mb) (x y : nat) : R (list pos * Z * nat) :=
  foldM (fun '(cells, fl, bv) '(i, j) =>
           if negb (i =? x)%nat || negb (j =? y)%nat then
             let* w := get (m_gb s) i j in
             let fl := if w =? 11 then fl + 1 else fl in
             if w =? 10 then
               let* v := get (m_board s) i j in
               if 0 <? v then
                 let* k := cell_is_bbbv s i j in
                 Ok (cells ++ [(i, j)], fl, if k : bool then S bv else bv)
               else Ok (cells ++ [(i, j)], fl, bv)
             else Ok (cells, fl, bv)
           else Ok (cells, fl, bv))
        (zone (m_row s) (m_column s) x y) ([], 0, 0%nat).
Definition chording_click (s : mb) (x y : nat) : R (mb * outcome) :=
  let s := w_double s (S (m_double s)) in
  let* w := get (m_gb s) x y in
  if (w =? 0) || (8 <=? w) then Ok (s, Some 0%nat)
  else
    let* r := chord_scan s x y in
    let '(cells, fl, bv) := r in
    if (fl =? w) && negb (length cells =? 0)%nat then
      let* s := foldM (fun s '(i, j) =>
                   let* v := get (m_board s) i j in
                   Ok (if v =? -1 then w_state s Loss else s)) cells s in
      let s := w_ce s (S (m_ce s)) in
      let s := w_solved s (m_solved s + bv)%nat in
      let* n := op_num_around_cell s x y in
      let s := w_solved s (m_solved s + n)%nat in
      let* g := refresh_board (m_board s) (m_gb s) cells in
      let s := w_gb s g in
      let* s := check_win s in
      Ok (s, Some 3%nat)
    else Ok (s, Some 0%nat).

(** minesweeper_board.rs 844-850 [clear_click_num] *)
Definition clear_click_num (s : mb) : mb :=
  w_right (w_left (w_double (w_flaged (w_flag s 0) []) 0) 0) 0.

(** [pos.0 == self.row && pos.1 == self.column] *)
Definition at_corner (s : mb) (p : pos) : bool :=
  ((fst p =? m_row s) && (snd p =? m_column s))%nat.
(** [pos.0 < self.row && pos.1 < self.column] *)
Definition in_board (s : mb) (p : pos) : bool :=
  ((fst p <? m_row s) && (snd p <? m_column s))%nat.

Definition ret (s : mb) (n : nat) : R (mb * outcome) := Ok (s, Some n).
Definition fail (s : mb) : R (mb * outcome) := Ok (s, None).

(** The block [if pos == (row, column) { return Ok(0) }; return self.chording_click(pos)] *)
Definition chord_at (s : mb) (p : pos) : R (mb * outcome) :=
  if at_corner s p then ret s 0 else chording_click s (fst p) (snd p).
(** The same after [self.right -= 1]. *)
Definition chord_at_right (s : mb) (p : pos) : R (mb * outcome) :=
  let* r := usub (m_right s) 1 in
  chord_at (w_right s r) p.
Definition left_at (s : mb) (p : pos) : R (mb * outcome) :=
  if at_corner s p then ret s 0 else left_click s (fst p) (snd p).

(** minesweeper_board.rs 587-797: the part of [step] executed in the Playing state (and, for some
    events, in PreFlaging). *)
Definition step_playing (s : mb) (e : event) (p : pos) : R (mb * outcome) :=
  match e with
  | e_lc =>
      match m_mouse s with
      | UpUp => ret (w_mouse s DownUp) 0
      | UpDown => ret (w_mouse s Chording) 0
      | UpDownNotFlag => ret (w_mouse s ChordingNotFlag) 0
      | DownUp | DownUpAfterChording | Chording | ChordingNotFlag => ret s 0
      | Undefined => ret (w_mouse s DownUp) 0
      end
  | e_lr =>
      match m_mouse s with
      | DownUp => left_at (w_mouse s UpUp) p
      | Chording => chord_at (w_mouse s UpDown) p
      | DownUpAfterChording => ret (w_mouse s UpUp) 0
      | ChordingNotFlag => chord_at_right (w_mouse s UpDown) p
      | UpDown | UpDownNotFlag => ret s 0
      | UpUp | Undefined => ret (w_mouse s UpUp) 0
      end
  | e_l =>
      match m_mouse s with
      | DownUp => left_at (w_mouse s UpUp) p
      | Chording => chord_at (w_mouse s UpDown) p
      | DownUpAfterChording => ret (w_mouse s UpUp) 0
      | ChordingNotFlag => chord_at_right (w_mouse s UpDown) p
      | UpUp => ret (w_mouse s DownUp) 0
      | UpDown => ret (w_mouse s Chording) 0
      | UpDownNotFlag => ret (w_mouse s ChordingNotFlag) 0
      | Undefined => ret (w_mouse s UpUp) 0
      end
  | e_rc =>
      match m_mouse s with
      | UpUp =>
          if in_board s p then
            let* w := get (m_gb s) (fst p) (snd p) in
            let s := w_mouse s (if w <? 10 then UpDownNotFlag else UpDown) in
            right_click s (fst p) (snd p)
          else ret (w_mouse s UpDownNotFlag) 0
      | DownUp | DownUpAfterChording => ret (w_mouse s Chording) 0
      | UpDown | UpDownNotFlag | Chording | ChordingNotFlag => ret s 0
      | Undefined => ret (w_mouse s UpDown) 0
      end
  | e_rr =>
      match m_mouse s with
      | UpDown | UpDownNotFlag => ret (w_mouse s UpUp) 0
      | Chording => chord_at (w_mouse s DownUpAfterChording) p
      | ChordingNotFlag => chord_at_right (w_mouse s DownUpAfterChording) p
      | DownUp | DownUpAfterChording => ret s 0
      | UpUp | Undefined => ret (w_mouse s UpUp) 0
      end
  | e_r =>
      match m_mouse s with
      | UpDown | UpDownNotFlag => ret (w_mouse s UpUp) 0
      | Chording => chord_at (w_mouse s DownUpAfterChording) p
      | ChordingNotFlag => chord_at_right (w_mouse s DownUpAfterChording) p
      | UpUp =>
          let* w := get (m_gb s) (fst p) (snd p) in
          let s := w_mouse s (if w <? 10 then UpDownNotFlag else UpDown) in
          right_click s (fst p) (snd p)
      | DownUp | DownUpAfterChording => ret (w_mouse s Chording) 0
      | Undefined => ret (w_mouse s UpUp) 0
      end
  | e_mv => ret s 0
  | e_mc => ret (w_mid s true) 0
  | e_mr => chording_click (w_mid s false) (fst p) (snd p)
  | e_m =>
      let s := w_mid s (negb (m_mid s)) in
      if negb (m_mid s) then chording_click s (fst p) (snd p) else ret s 0
  | e_cc =>
      match m_mouse s with
      | DownUp | DownUpAfterChording | UpDown => ret (w_mouse s Chording) 0
      | UpDownNotFlag => ret (w_mouse s ChordingNotFlag) 0
      | _ => fail s
      end
  | e_crl =>
      match m_mouse s with
      | Chording => chord_at (w_mouse s UpDown) p
      | ChordingNotFlag => chord_at_right (w_mouse s UpDown) p
      | _ => fail s
      end
  | e_crr =>
      match m_mouse s with
      | Chording => chord_at (w_mouse s DownUpAfterChording) p
      | ChordingNotFlag => chord_at_right (w_mouse s DownUpAfterChording) p
      | _ => fail s
      end
  | e_pf | e_other => fail s
  end.

(** minesweeper_board.rs 410-489: [step] in the Ready state. *)
Definition step_ready (s : mb) (e : event) (p : pos) : R (mb * outcome) :=
  match e with
  | e_mv => ret s 0
  | e_lc =>
      match m_mouse s with
      | UpUp =>
          let s := w_mouse s DownUp in
          ret (if in_board s p then w_state s PreFlaging else s) 0
      | UpDown => ret (w_mouse s Chording) 0
      | UpDownNotFlag => ret (w_mouse s ChordingNotFlag) 0
      | _ => fail s
      end
  | e_pf =>
      let* w := get (m_gb s) (fst p) (snd p) in
      if w =? 10 then
        right_click (w_state (w_preflag s (S (m_preflag s))) PreFlaging) (fst p) (snd p)
      else Panic
  | e_rc =>
      match m_mouse s with
      | UpUp =>
          let s := w_mouse s UpDown in
          if in_board s p then
            right_click (w_state (w_preflag s 1) PreFlaging) (fst p) (snd p)
          else ret s 0
      | DownUpAfterChording => ret (w_mouse s Chording) 0
      | _ => fail s
      end
  | e_lr =>
      match m_mouse s with
      | Chording | ChordingNotFlag => ret (w_mouse s UpDown) 0
      | DownUpAfterChording => ret (w_mouse s UpUp) 0
      | DownUp | UpUp => ret (w_mouse s UpUp) 0
      | _ => fail s
      end
  | e_rr =>
      match m_mouse s with
      | UpDown => ret (w_mouse s UpUp) 0
      | Chording => ret (w_mouse s DownUpAfterChording) 0
      | _ => fail s
      end
  | e_cc =>
      match m_mouse s with
      | DownUp | DownUpAfterChording | UpDown => ret (w_mouse s Chording) 0
      | UpDownNotFlag => ret (w_mouse s ChordingNotFlag) 0
      | _ => fail s
      end
  | _ => fail s
  end.

(** minesweeper_board.rs 490-582: [step] in the PreFlaging state; falls through to the Playing part
    where the Rust code does. *)
Definition step_preflag (s : mb) (e : event) (p : pos) : R (mb * outcome) :=
  match e with
  | e_lc | e_rr | e_mv => step_playing s e p
  | e_lr =>
      match m_mouse s with
      | DownUp =>
          if at_corner s p then
            let s := w_mouse s UpUp in
            ret (if (m_preflag s =? 0)%nat then clear_click_num (w_state s Ready) else s) 0
          else
            let* w := get (m_gb s) (fst p) (snd p) in
            if w =? 10 then step_playing (w_state s Playing) e p
            else step_playing (w_mouse s UpUp) e p
      | Chording | DownUpAfterChording | ChordingNotFlag | UpUp | Undefined => step_playing s e p
      | _ => fail s
      end
  | e_pf =>
      let* w := get (m_gb s) (fst p) (snd p) in
      if w =? 10 then right_click (w_preflag s (S (m_preflag s))) (fst p) (snd p)
      else Panic
  | e_rc =>
      match m_mouse s with
      | UpUp =>
          let s := w_mouse s UpDown in
          if in_board s p then
            let* w := get (m_gb s) (fst p) (snd p) in
            if w =? 10 then
              right_click (w_state (w_preflag s (S (m_preflag s))) PreFlaging) (fst p) (snd p)
            else
              let* n := usub (m_preflag s) 1 in
              let s := w_preflag s n in
              if (n =? 0)%nat then
                let s := clear_click_num (w_state s Ready) in
                let* g := set (m_gb s) (fst p) (snd p) 10 in
                ret (w_gb s g) 0
              else right_click s (fst p) (snd p)
          else step_playing s e p
      | DownUp =>
          let s := w_mouse s Chording in
          let s := if in_board s p && (m_preflag s =? 0)%nat then w_state s Ready else s in
          step_playing s e p
      | DownUpAfterChording => step_playing (w_mouse s Chording) e p
      | _ => fail s
      end
  | e_cc =>
      match m_mouse s with
      | DownUp =>
          let s := if in_board s p && (m_preflag s =? 0)%nat then w_state s Ready else s in
          ret (w_mouse s Chording) 0
      | DownUpAfterChording | UpDown => ret (w_mouse s Chording) 0
      | UpDownNotFlag => ret (w_mouse s ChordingNotFlag) 0
      | _ => fail s
      end
  | _ => fail s
  end.

(** minesweeper_board.rs 392-798 [step] *)
Definition step (s : mb) (e : event) (p : pos) : R (mb * outcome) :=
  match m_state s with
  | Ready => step_ready s e p
  | PreFlaging => step_preflag s e p
  | Playing => step_playing s e p
  | Loss | Win | Display => ret s 0
  end.

(** minesweeper_board.rs 801-810 [step_flow]: stops at the first [Err]. *)
Fixpoint step_flow (s : mb) (ops : list (event * pos)) : R (mb * option unit) :=
  match ops with
  | [] => Ok (s, Some tt)
  | (e, p) :: ops' =>
      let* r := step s e p in
      match r with
      | (s, Some _) => step_flow s ops'
      | (s, None) => Ok (s, None)
      end
  end.

(** The API calls of a session: [step] (whatever it returns, the caller may go on) and [reset]. *)
Inductive call : Type := Step (e : event) (p : pos) | Reset.
Definition call1 (s : mb) (c : call) : R mb :=
  match c with
  | Step e p => let* r := step s e p in Ok (fst r)
  | Reset => Ok (mb_reset s)
  end.
Definition exec (s : mb) (cs : list call) : R mb := foldM call1 cs s.
