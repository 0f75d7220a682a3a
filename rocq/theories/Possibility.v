(** * Possibility: model of [cal_possibility], [cal_possibility_onboard] and
    [cal_is_op_possibility_cells] (algorithms.rs 218-545).

    Simplification: the floating point numbers (BigNumber, utils.rs 641-717, and the f64 results) are
    replaced by exact natural numbers, the quotients by fractions. A fraction (0, 0) stands for NaN:
    the code computes 0.0 / 0.0 there. *)
From Verif Require Import Base LayMine Matrix Solve Utils.
Open Scope nat_scope.

Definition frac : Type := nat * nat.
(** The parameter [minenum: f64]. [Count m]: it is at least 1 and [m] is its integral part.
    [Ratio m]: it is less than 1, and [m] is (rows * columns * minenum) as usize (307). *)
Inductive mine_spec := Count (m : nat) | Ratio (m : nat).

(** the columns of a table: mine numbers, numbers of solutions *)
Definition t_mines (t : list trow) : list nat := map (fun r => fst (fst r)) t.
Definition t_count (t : list trow) : list nat := map (fun r => snd (fst r)) t.
Definition t_cells (t : list trow) : list (list nat) := map snd t.
(** [iter().min().unwrap()], [iter().max().unwrap()] *)
Definition list_min (l : list nat) : R nat := match l with [] => Panic | a :: l => Ok (fold_left Nat.min l a) end.
Definition list_max (l : list nat) : R nat := match l with [] => Panic | a :: l => Ok (fold_left Nat.max l a) end.
(** itertools [multi_cartesian_product]: the last component varies fastest *)
Fixpoint cart (ls : list (list nat)) : list (list nat) :=
  match ls with
  | [] => [[]]
  | l :: ls => flat_map (fun a => map (cons a) (cart ls)) l
  end.
(** [iter().position(|x| *x == v).unwrap()] *)
Fixpoint position (l : list nat) (v : nat) : R nat :=
  match l with
  | [] => Panic
  | a :: l => if a =? v then Ok 0 else let* i := position l v in Ok (S i)
  end.

(** 328-333: the number of mines of a choice [s] of one line per table ([kss]: the mine numbers of the
    lines). The loops over j = 0, 1, ... run through the tables and the choice side by side. *)
Definition choice_total (kss : list (list nat)) (s : list nat) : R nat :=
  foldM (fun t '(l, a) => let* k := vget l a in Ok (t + k)) (combine kss s) 0.
(** 350-357 and 363-369: the product of the numbers of solutions of the chosen lines, without block
    [skip], and the mines left for the inner cells *)
Definition weigh (tabs : list (list trow)) (minenum : nat) (skip : option nat) (s : list nat) : R (nat * nat) :=
  foldM (fun '(w, mn) '(j, (t, a)) =>
           let* r := vget t a in
           let* mn := usub mn (fst (fst r)) in
           Ok (match skip with
               | Some i => if i =? j then w else w * snd (fst r)
               | None => w * snd (fst r)
               end, mn))
        (combine (seq 0 (length tabs)) (combine tabs s)) (1, minenum).
(** [o[i][a].add_big_number(w)] *)
Definition add_at (o : list (list nat)) (i a w : nat) : R (list (list nat)) :=
  let* v := get o i a in set o i a (v + w).
(** 348-371: one choice *)
Definition tally (tabs : list (list trow)) (unk unkC : list nat) (minenum : nat) (other : list (list nat)) (s : list nat)
  : R (list (list nat)) :=
  let n := length tabs in
  let* other := foldM (fun other i =>
                  let* (w, mn) := weigh tabs minenum (Some i) s in
                  let* ps := position unk mn in
                  let* c := vget unkC ps in
                  let* a := vget s i in
                  add_at other i a (w * c)) (seq 0 n) other in
  let* (w, mn) := weigh tabs minenum None s in
  let* ps := position unk mn in
  add_at other n ps w.

(** a block with its groups of equal columns and its table *)
Record piece := Piece { p_block : block; p_groups : list (list nat); p_table : list trow }.

(** algorithms.rs 321-405: from the tables to the probabilities. [minenum]: the mines that are not
    flagged; [min_minenum], [max_minenum]: the bounds for the border. *)
Definition posterior (ps : list piece) (unknow_block minenum min_minenum max_minenum : nat) : R (list (pos * frac) * frac) :=
    let tabs := map p_table ps in
    (* 321-327 *)
    let* lo := usub minenum max_minenum in
    let* up := usub minenum min_minenum in
    let unk := rng lo (Nat.min up unknow_block + 1) in
    let* unkC := mapM (fun i => C_exact 1 unknow_block i) unk in
    (* 330-347 *)
    let kss := map t_mines tabs ++ [unk] in
    let* sel := foldM (fun acc s => let* t := choice_total kss s in Ok (if t =? minenum then acc ++ [s] else acc))
                      (cart (map (fun l => seq 0 (length l)) kss)) [] in
    let* other := foldM (tally tabs unk unkC minenum) sel (map (fun l => repeat 0 (length l)) kss) in
    let n := length tabs in
    let* on := vget other n in
    (* 373-378 *)
    let* T := foldM (fun T '(o, c) => Ok (T + o * c)) (combine on unkC) 0 in
    (* 381-396 *)
    let* p := mapM (fun '(i, pc) =>
                let* oi := vget other i in
                mapM (fun j =>
                  let* grp := vget (p_groups pc) j in
                  let* num := foldM (fun num '(o, cells) => let* c := vget cells j in Ok (num + o * c))
                                    (combine oi (t_cells (p_table pc))) 0 in
                  mapM (fun id => let* q := vget (vars (p_block pc)) id in Ok (q, (num, T))) grp)
                (seq 0 (length (p_groups pc))))
              (combine (seq 0 n) ps) in
    (* 398-405 *)
    let* u := foldM (fun u '(o, (c, k)) => Ok (u + o * c * k)) (combine on (combine unkC unk)) 0 in
    Ok (concat (map (@concat _) p), (u, T * unknow_block)).

(** algorithms.rs 218-418. Result: the probabilities of the border cells, that of the inner cells, the
    three mine numbers, the size of the largest block. *)
Definition cal_possibility (g : board) (minenum : mine_spec) : R (list (pos * frac) * frac * (nat * nat * nat) * nat) :=
  let* (bl, inner, is_minenum) := refresh_matrixs g in
  (* 237-248 *)
  let exceed_len := fold_left Nat.max (rev (map (fun B => length (vars B)) bl)) 0 in
  let big := filter (fun B => ENUM_LIMIT <? length (vars B)) bl in
  let unknow_block := inner + nsum (map (fun B => length (vars B)) big) in
  let bl := filter (fun B => negb (ENUM_LIMIT <? length (vars B))) bl in
  (* 256-262 *)
  let* sq := mapM (fun B => let* (A, x, groups) := combine_cells (map fst (eqs B)) (vars B) in Ok (B, A, x, groups)) bl in
  (* 264-291 *)
  let* ps := mapM (fun '(B, A, x, groups) =>
                let* t := cal_table_minenum_recursion A x (map snd (eqs B)) groups in Ok (Piece B groups t)) sq in
  (* 292-300 *)
  let* mins := mapM (fun pc => list_min (t_mines (p_table pc))) ps in
  let* maxs := mapM (fun pc => list_max (t_mines (p_table pc))) ps in
  let min_minenum := nsum mins in
  let max_minenum := nsum maxs in
  (* 301-314 *)
  let* minenum := (match minenum with
                   | Ratio mn => let* d := usub mn is_minenum in
                                 Ok (Nat.min (Nat.max d min_minenum) (max_minenum + unknow_block))
                   | Count m => if m <? is_minenum then Err 17 else Ok (m - is_minenum)
                   end) in
  let max_minenum := Nat.min max_minenum minenum in
  if max_minenum <? min_minenum then Err 3
  else
    let* (p, pu) := posterior ps unknow_block minenum min_minenum max_minenum in
    Ok (p, pu, (min_minenum + is_minenum, minenum + is_minenum, max_minenum + is_minenum + unknow_block), exceed_len).

(** algorithms.rs 466-490. The initial -1.0 is [None]; [p < -0.5] holds exactly of those (a NaN is kept). *)
Definition cal_possibility_onboard (g : board) (minenum : mine_spec) : R (list (list frac) * (nat * nat * nat)) :=
  let row := nrows g in
  let* column := ncolsR g in
  let* (pp, pu, range, _) := cal_possibility g minenum in
  let* p := foldM (fun p '((x, y), f) => set p x y (Some f)) pp (mkboard row column None) in
  let* p := foldM (fun p '(r, c) =>
              let* v := get g r c in
              let* w := get p r c in
              if (v =? 11)%Z then set p r c (Some (1, 1))
              else match w with
                   | None => set p r c (Some (if (v =? 10)%Z then pu else (0, 1)))
                   | Some _ => if (v =? 12)%Z then set p r c (Some (0, 1)) else Ok p
                   end) (grid row column) p in
  Ok (map (map (fun o => match o with Some f => f | None => (0, 1) end)) p, range).

(** algorithms.rs 510-545, for one cell. The loop with [break 'outer]: [None] in the state means that it
    was left with the answer 0. [1.0 - p] of the fraction (a, b) is (b - a, b). *)
Definition op_possibility (g : board) (minenum : mine_spec) (cell : pos) : R frac :=
  let row := nrows g in
  let* column := ncolsR g in
  let* (st, _) := foldM (fun '(st, gm) '(m, n) =>
      match st with
      | None => Ok (None, gm)
      | Some (a, b) =>
          let* v := get g m n in
          if ((v <? 10)%Z && posb (m, n) cell) || (v =? 11)%Z then Ok (None, gm)
          else if (v =? 12)%Z || (v <? 10)%Z then Ok (Some (a, b), gm)
          else
            match cal_possibility_onboard gm minenum with
            | Ok (p, _) => let* f := get p m n in
                           let* d := usub (snd f) (fst f) in
                           let* gm := set gm m n 12%Z in
                           Ok (Some (a * d, b * snd f), gm)
            | Err _ => Ok (None, gm)
            | Panic => Panic
            | OutOfFuel => OutOfFuel
            end
      end) (zone row column (fst cell) (snd cell)) (Some (1, 1), g) in
  Ok (match st with None => (0, 1) | Some f => f end).
Definition cal_is_op_possibility_cells (g : board) (minenum : mine_spec) (cells : list pos) : R (list frac) :=
  mapM (op_possibility g minenum) cells.
