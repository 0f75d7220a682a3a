(** * PossFloat: [cal_possibility] and [cal_possibility_onboard] with the f64 arithmetic of the code
    (algorithms.rs 218-490). The same as Possibility, with [BigNumber] (BigNum) instead of exact numbers
    and binary64 instead of fractions. The counts of solutions are exact (usize, no overflow for blocks of
    at most 55 cells). *)
From Coq Require Import ZArith.
From Flocq Require Import Core IEEE754.BinarySingleNaN IEEE754.Binary IEEE754.Bits.
From Verif Require Import Base LayMine Matrix Solve Utils FloatTime FloatQuot BigNum Possibility.
Open Scope nat_scope.

(** algorithms.rs 306-310: the parameter [minenum: f64] for a board of [area] cells *)
Definition spec_of_f64 (area : nat) (minenum : binary64) : mine_spec :=
  if f_lt minenum f_one then Ratio (Z.to_nat (trunc_usize (fmul (f_of area) minenum)))
  else Count (Z.to_nat (trunc_usize minenum)).

(** 350-357 and 363-369 *)
Definition weigh_f (tabs : list (list trow)) (minenum : nat) (skip : option nat) (s : list nat) : R (big * nat) :=
  foldM (fun '(w, mn) '(j, (t, a)) =>
           let* r := vget t a in
           let* w := (match skip with
                      | Some i => if i =? j then Ok w else mul_usize w (snd (fst r))
                      | None => mul_usize w (snd (fst r))
                      end) in
           let* mn := usub mn (fst (fst r)) in
           Ok (w, mn))
        (combine (seq 0 (length tabs)) (combine tabs s)) (big_one, minenum).
Definition add_at_f (o : list (list big)) (i a : nat) (w : big) : R (list (list big)) :=
  let* v := get o i a in
  let* v := add_big_number v w in
  set o i a v.
(** 348-371 *)
Definition tally_f (tabs : list (list trow)) (unk : list nat) (unkC : list big) (minenum : nat) (other : list (list big)) (s : list nat)
  : R (list (list big)) :=
  let n := length tabs in
  let* other := foldM (fun other i =>
                  let* (w, mn) := weigh_f tabs minenum (Some i) s in
                  let* ps := position unk mn in
                  let* c := vget unkC ps in
                  let* w := mul_big_number w c in
                  let* a := vget s i in
                  add_at_f other i a w) (seq 0 n) other in
  let* (w, mn) := weigh_f tabs minenum None s in
  let* ps := position unk mn in
  add_at_f other n ps w.
(** 321-405 *)
Definition posterior_f (ps : list piece) (unknow_block minenum min_minenum max_minenum : nat) : R (list (pos * binary64) * binary64) :=
    let tabs := map p_table ps in
    let* lo := usub minenum max_minenum in
    let* up := usub minenum min_minenum in
    let unk := rng lo (Nat.min up unknow_block + 1) in
    let* unkC := mapM (fun i => C_big 1 unknow_block i) unk in
    let kss := map t_mines tabs ++ [unk] in
    let* sel := foldM (fun acc s => let* t := choice_total kss s in Ok (if t =? minenum then acc ++ [s] else acc))
                      (cart (map (fun l => seq 0 (length l)) kss)) [] in
    let* other := foldM (tally_f tabs unk unkC minenum) sel (map (fun l => repeat big_zero (length l)) kss) in
    let n := length tabs in
    let* on := vget other n in
    (* 373-378 *)
    let* T := foldM (fun T '(o, c) => let* t := mul_big_number o c in add_big_number T t) (combine on unkC) big_zero in
    (* 381-396 *)
    let* p := mapM (fun '(i, pc) =>
                let* oi := vget other i in
                mapM (fun j =>
                  let* grp := vget (p_groups pc) j in
                  let* num := foldM (fun num '(o, cells) => let* c := vget cells j in let* o := mul_usize o c in add_big_number num o)
                                    (combine oi (t_cells (p_table pc))) big_zero in
                  mapM (fun id => let* q := vget (vars (p_block pc)) id in Ok (q, div_big_num num T)) grp)
                (seq 0 (length (p_groups pc))))
              (combine (seq 0 n) ps) in
    (* 398-405 *)
    let* u := foldM (fun u '(o, (c, k)) => let* t := mul_big_number o c in let* t := mul_usize t k in add_big_number u t)
                    (combine on (combine unkC unk)) big_zero in
    Ok (concat (map (@concat _) p), fdiv (div_big_num u T) (f_of unknow_block)).

(** algorithms.rs 218-418 *)
Definition cal_possibility_f (g : board) (minenum : mine_spec) : R (list (pos * binary64) * binary64 * (nat * nat * nat) * nat) :=
  let* (bl, inner, is_minenum) := refresh_matrixs g in
  let exceed_len := fold_left Nat.max (rev (map (fun B => length (vars B)) bl)) 0 in
  let big := filter (fun B => ENUM_LIMIT <? length (vars B)) bl in
  let unknow_block := inner + nsum (map (fun B => length (vars B)) big) in
  let bl := filter (fun B => negb (ENUM_LIMIT <? length (vars B))) bl in
  let* sq := mapM (fun B => let* (A, x, groups) := combine_cells (map fst (eqs B)) (vars B) in Ok (B, A, x, groups)) bl in
  let* ps := mapM (fun '(B, A, x, groups) =>
                let* t := cal_table_minenum_recursion A x (map snd (eqs B)) groups in Ok (Piece B groups t)) sq in
  let* mins := mapM (fun pc => list_min (t_mines (p_table pc))) ps in
  let* maxs := mapM (fun pc => list_max (t_mines (p_table pc))) ps in
  let min_minenum := nsum mins in
  let max_minenum := nsum maxs in
  let* minenum := (match minenum with
                   | Ratio mn => let* d := usub mn is_minenum in
                                 Ok (Nat.min (Nat.max d min_minenum) (max_minenum + unknow_block))
                   | Count m => if m <? is_minenum then Err 17 else Ok (m - is_minenum)
                   end) in
  let max_minenum := Nat.min max_minenum minenum in
  if max_minenum <? min_minenum then Err 3
  else
    let* (p, pu) := posterior_f ps unknow_block minenum min_minenum max_minenum in
    Ok (p, pu, (min_minenum + is_minenum, minenum + is_minenum, max_minenum + is_minenum + unknow_block), exceed_len).

(** algorithms.rs 466-490 *)
Definition f_minus_one : binary64 := f64_of_Z (-1).
Definition f_minus_half : binary64 := fdiv (f64_of_Z (-1)) (f64_of_Z 2).
Definition cal_possibility_onboard_f (g : board) (minenum : mine_spec) : R (list (list binary64) * (nat * nat * nat)) :=
  let row := nrows g in
  let* column := ncolsR g in
  let* (pp, pu, range, _) := cal_possibility_f g minenum in
  let* p := foldM (fun p '((x, y), f) => set p x y f) pp (mkboard row column f_minus_one) in
  let* p := foldM (fun p '(r, c) =>
              let* v := get g r c in
              if (v =? 11)%Z then set p r c f_one
              else
                let* w := get p r c in
                if (v =? 10)%Z && f_lt w f_minus_half then set p r c pu
                else if (v =? 12)%Z then set p r c f_zero
                else if f_lt w f_minus_half then set p r c f_zero
                else Ok p) (grid row column) p in
  Ok (p, range).

(** The two functions with their [f64] parameter. (Simplified: the number of columns is read at the
    start; an empty board panics anyway, in [refresh_matrixs].) *)
Definition possibility_f64 (g : board) (minenum : binary64) : R (list (pos * binary64) * binary64 * (nat * nat * nat) * nat) :=
  let* column := ncolsR g in cal_possibility_f g (spec_of_f64 (nrows g * column) minenum).
Definition possibility_onboard_f64 (g : board) (minenum : binary64) : R (list (list binary64) * (nat * nat * nat)) :=
  let* column := ncolsR g in cal_possibility_onboard_f g (spec_of_f64 (nrows g * column) minenum).
