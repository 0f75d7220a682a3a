(** * LayMine: model of mine laying and number filling in base/src/utils.rs. *)
From Verif Require Import Base.
Open Scope Z_scope.

(** usize subtraction; underflow panics in debug builds (in release builds it wraps and the
    subsequent allocation/indexing aborts). *)
Definition usub (a b : nat) : R nat := if (b <=? a)%nat then Ok (a - b)%nat else Panic.

(** utils.rs 501-507 / 549-555 / 1777-1783: increment every non-negative cell of the zone. *)
Definition bump (row column : nat) (b : board) (x y : nat) : R board :=
  foldM (fun b '(j, k) =>
           let* v := get b j k in
           if 0 <=? v then set b j k (v + 1) else Ok b)
        (zone row column x y) b.

(** utils.rs 459-511 [laymine]. The library shuffle is the argument [shuf]; the theorems take an
    arbitrary [shuf] that permutes its argument. *)
Definition laymine (shuf : list Z -> list Z) (row column minenum X0 Y0 : nat) : R board :=
  let* area := usub (row * column) 1 in
  let* n0 := usub area minenum in
  let dim := shuf (repeat 0 n0 ++ repeat (-1) minenum) in
  let pointer := (X0 + Y0 * row)%nat in
  let* d1 := foldM (fun acc i => let* v := vget dim i in Ok (acc ++ [v])) (rng 0 pointer) [] in
  let d1 := d1 ++ [0] in
  let* d2 := foldM (fun acc i => let* v := vget dim i in Ok (acc ++ [v])) (rng pointer area) d1 in
  foldM (fun b i =>
           let* v := vget d2 i in
           if v <? 0 then
             let x := (i mod row)%nat in
             let y := (i / row)%nat in
             let* b := set b x y (-1) in
             bump row column b x y
           else Ok b)
        (rng 0 (area + 1)) (mkboard row column 0).

(** utils.rs 523-535: size of the opening zone assumed around the start cell. *)
Definition area_op (row column X0 Y0 : nat) : R nat :=
  let* r1 := usub row 1 in
  let* c1 := usub column 1 in
  Ok (if ((X0 =? 0) || (Y0 =? 0) || (X0 =? r1) || (Y0 =? c1))%nat then
        if ((X0 =? 0) && (Y0 =? 0) || (X0 =? 0) && (Y0 =? c1)
            || (X0 =? r1) && (Y0 =? 0) || (X0 =? r1) && (Y0 =? c1))%nat then 4 else 6
      else 9)%nat.

(** utils.rs 516-561 [laymine_op]. The evaluation order of [row - 1] inside the lazy [||] is
    simplified: the model panics on row = 0 or column = 0 even if X0 = 0, where Rust would panic
    two lines later in [row * column - areaOp]. *)
Definition laymine_op (shuf : list Z -> list Z) (row column minenum X0 Y0 : nat) : R board :=
  let* areaOp := area_op row column X0 Y0 in
  let* area := usub (row * column) areaOp in
  let* n0 := usub area minenum in
  let dim := shuf (repeat 0 n0 ++ repeat (-1) minenum) in
  let* r := foldM (fun '(b, skip) i =>
           let x := (i mod row)%nat in
           let y := (i / row)%nat in
           if ((x <=? X0 + 1) && (X0 <=? x + 1) && (y <=? Y0 + 1) && (Y0 <=? y + 1))%nat then
             Ok (b, S skip)
           else
             let* id := usub i skip in
             let* v := vget dim id in
             if v <? 0 then
               let* b := set b x y (-1) in
               let* b := bump row column b x y in
               Ok (b, skip)
             else Ok (b, skip))
        (rng 0 (area + areaOp)) (mkboard row column 0, 0%nat) in
  Ok (fst r).

(** utils.rs 1771-1787 [cal_board_numbers]. *)
Definition cal_board_numbers (b : board) : R board :=
  let height := nrows b in
  let* width := ncolsR b in
  foldM (fun b '(x, y) =>
           let* v := get b x y in
           if v =? -1 then bump height width b x y else Ok b)
        (grid height width) b.

(** utils.rs 419-434 [get_random_int] (js build). [ws] is the stream of random 32-bit words that
    getrandom delivers; running out of words is [OutOfFuel]. The word itself is the big-endian
    value of the four bytes, so only [t < 2^32] is known about it. *)
Fixpoint get_random_int (limit : Z) (ws : list Z) : R (Z * list Z) :=
  if limit =? 0 then Ok (0, ws)
  else match ws with
       | [] => OutOfFuel
       | t :: ws' =>
           if t <? 4294967295 / limit * limit then Ok (t mod limit, ws')
           else get_random_int limit ws'
       end.

(** utils.rs 443-453 [shuffle_] (js build). *)
Definition shuffle_ (l : list Z) (ws : list Z) : R (list Z * list Z) :=
  foldM (fun '(v, ws) i =>
           let* r := get_random_int (Z.of_nat i + 1) ws in
           let '(id, ws) := r in
           let id := Z.to_nat id in
           let* t := vget v i in
           let* u := vget v id in
           let* v := vset v i u in
           let* v := vset v id t in
           Ok (v, ws))
        (rng 1 (length l)) (l, ws).
