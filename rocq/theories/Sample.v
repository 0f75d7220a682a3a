(** * Sample: model of the 3BV sampler of base/src/algorithms.rs 1069-1130. *)
From Verif Require Import Base LayMine Utils.
Open Scope Z_scope.

(** algorithms.rs 1097-1125: one board of [laymine_study_exp]. [board1_dim] has length 479 with -1
    in 380..479; [board1_dim_2] has length 480. The library shuffle is the argument [shuf]. *)
Definition study_board (shuf : list Z -> list Z) (x0 y0 : nat) : R board :=
  let pointer := (x0 + y0 * 16)%nat in
  let* d := foldM (fun d i => vset d i (-1)) (rng 380 479) (repeat 0 479) in
  let d := shuf d in
  let* d2 := foldM (fun d2 i => let* v := vget d i in vset d2 i v) (rng 0 pointer) (repeat 0 480) in
  let* d2 := vset d2 pointer 0 in
  let* d2 := foldM (fun d2 i => let* v := vget d i in vset d2 (i + 1) v) (rng pointer 479) d2 in
  foldM (fun b i =>
           let* v := vget d2 i in
           if v <? 0 then
             let x := (i mod 16)%nat in
             let y := (i / 16)%nat in
             let* b := set b x y (-1) in
             foldM (fun b '(j, k) =>
                      let* v := get b j k in
                      if 0 <=? v then set b j k (v + 1) else Ok b)
                   (list_prod (rng (Nat.max 1 x - 1) (Nat.min 16 (x + 2)))
                              (rng (Nat.max 1 y - 1) (Nat.min 30 (y + 2)))) b
           else Ok b)
        (rng 0 480) (mkboard 16 30 0).

(** algorithms.rs 1091-1130 [laymine_study_exp]: [shufs i] is the shuffle of the i-th board.
    Overflow of the usize counters is not modelled. *)
Definition laymine_study_exp (shufs : nat -> list Z -> list Z) (x0 y0 n : nat) : R (list nat) :=
  foldM (fun bv_record id =>
           let* b := study_board (shufs id) x0 y0 in
           let* k := cal_bbbv_exp b in
           let* c := vget bv_record k in
           vset bv_record k (S c))
        (rng 0 n) (repeat 0%nat 382).

(** algorithms.rs 1069-1088 [sample_3BVs_exp]: [shufs t i] is the shuffle of the i-th board of thread
    [t]. A thread that panics makes [join().unwrap()] panic. *)
Definition sample_3BVs_exp (shufs : nat -> nat -> list Z -> list Z) (x0 y0 n : nat) : R (list nat) :=
  let n0 := (n / 16)%nat in
  foldM (fun aa t =>
           let* h := laymine_study_exp (shufs t) x0 y0 n0 in
           foldM (fun aa ii => let* a := vget aa ii in let* c := vget h ii in vset aa ii (a + c)%nat) (rng 0 382) aa)
        (rng 0 16) (repeat 0%nat 382).
