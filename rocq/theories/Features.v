(** * Features: model of [analyse_for_features] (base_video.rs 582-631) and of the analyses of
    base/src/videos/analyse_methods.rs.

    A comment is kept as a value of [comment], not as text; the comments of an event are a list in the
    order in which they are appended. Probabilities are exact fractions (Possibility.v): the comparisons
    [p >= 0.51], [p > 0.0], [p < 1.0] are made on them (0/0 is NaN: every comparison fails). *)
From Coq Require Import ZArith.
From Flocq Require Import IEEE754.BinarySingleNaN IEEE754.Binary IEEE754.Bits.
From Verif Require Import Base MineBoard Matrix Solve BoardCache Utils Possibility Evf BaseVideo FloatTime.
Open Scope Z_scope.

Inductive comment :=
| Risky (p : frac)        (* error: 危险的猜雷(猜对概率 1 - p) *)
| HardLeft                (* feature: 高难度的判雷(左键) *)
| HardFlag                (* feature: 高难度的判雷(标雷) *)
| Needless                (* warning: 可以判雷时选择猜雷 *)
| VeryBent                (* error: 过于弯曲的鼠标轨迹 *)
| Bent                    (* warning: 弯曲的鼠标轨迹 *)
| Straight                (* suspect: 笔直的鼠标轨迹 *)
| Vision                  (* warning: 可以判雷时视野的转移 *)
| Luck (ps : list frac)   (* luck: the factors 1 - p *)
| SuperFL (n : Z).        (* feature: 教科书式的FL局部(步数 n) *)

(** [mouse == "..."] *)
Definition event_eqb (a b : event) : bool :=
  match a, b with
  | e_mv, e_mv | e_lc, e_lc | e_lr, e_lr | e_rc, e_rc | e_rr, e_rr | e_mc, e_mc | e_mr, e_mr
  | e_pf, e_pf | e_cc, e_cc | e_l, e_l | e_r, e_r | e_m, e_m | e_crl, e_crl | e_crr, e_crr | e_other, e_other => true
  | _, _ => false
  end.

(** ** board.rs [get_poss] *)

(** a [GameBoard] with its probabilities ([poss], [has_poss]) *)
Record pboard := PBoard { pb_g : gboard; pb_poss : option (list (list frac)) }.
(** board.rs 106: [self.mine_num as f64]; algorithms.rs 299: below 1.0 it is taken as a ratio *)
Definition mine_arg (n : nat) : mine_spec := if (n =? 0)%nat then Ratio 0 else Count n.
(** board.rs 102-112 *)
Definition get_poss (g : pboard) : R (list (list frac) * pboard) :=
  match pb_poss g with
  | Some p => Ok (p, g)
  | None =>
      let* s := gb_mark (pb_g g) in
      let* (p, _) := unwrap (cal_possibility_onboard (gb_marked s) (mine_arg (gb_minenum s))) in
      Ok (p, PBoard s (Some p))
  end.
(** board.rs 113-142 *)
Definition get_list (g : pboard) (q : gquery) : R (list pos * pboard) :=
  let* (l, s) := gask (pb_g g) q in Ok (l, PBoard s (pb_poss g)).

(** ** The state of the analyses: the boards of [game_board_stream] and the [comments] of every event.
    The events themselves are not changed. *)
Definition fstate : Type := list pboard * list (list comment).
(** the state after [analyse] *)
Definition fstart (v : bv) : fstate := (map (fun g => PBoard g None) (b_stream v), map (fun _ => []) (b_rec v)).

(** [video.game_board_stream[id].get_poss()[x][y]] *)
Definition ask_poss (gs : list pboard) (id : nat) (p : pos) : R (frac * list pboard) :=
  let* g := vget gs id in
  let* (t, g) := get_poss g in
  let* gs := vset gs id g in
  let* a := get t (fst p) (snd p) in
  Ok (a, gs).
(** [video.game_board_stream[id].get_...()] *)
Definition ask_list (gs : list pboard) (id : nat) (q : gquery) : R (list pos * list pboard) :=
  let* g := vget gs id in
  let* (l, g) := get_list g q in
  let* gs := vset gs id g in
  Ok (l, gs).
(** [comments = format!("{}{}", comments, ...)] *)
Definition say (cm : list (list comment)) (i : nat) (c : comment) : R (list (list comment)) :=
  let* l := vget cm i in vset cm i (l ++ [c]).
(** [(y / cell_pixel_size, x / cell_pixel_size)] *)
Definition place (v : bv) (r : rec) : R pos :=
  let pix := Z.to_nat (v_pix (b_meta v)) in
  let* y := udiv (Z.to_nat (r_y r)) pix in
  let* x := udiv (Z.to_nat (r_x r)) pix in
  Ok (y, x).

(** [p >= 0.51], [p > 0.0], [p < 1.0] *)
Definition at_least_51 (p : frac) : bool := ((1 <=? snd p) && (51 * snd p <=? 100 * fst p))%nat.
Definition positive (p : frac) : bool := ((1 <=? snd p) && (1 <=? fst p))%nat.
Definition below_one (p : frac) : bool := (fst p <? snd p)%nat.

(** analyse_methods.rs 20-37 *)
Definition high_risk_guess (v : bv) (st : fstate) : R fstate :=
  foldM (fun '(gs, cm) i =>
     let* r := vget (b_rec v) i in
     let* q := place v r in
     if (2 <=? r_useful r)%nat then
       let* (p, gs) := ask_poss gs (r_prior r) q in
       if at_least_51 p then let* cm := say cm i (Risky p) in Ok (gs, cm) else Ok (gs, cm)
     else Ok (gs, cm))
   (rng 2 (length (b_rec v))) st.

(** the cell is in the second list but not in the first; [&&] does not ask for the second otherwise *)
Definition only_by (gs : list pboard) (id : nat) (q1 q2 : gquery) (q : pos) : R (bool * list pboard) :=
  let* (l, gs) := ask_list gs id q1 in
  if mem_pos q l then Ok (false, gs)
  else let* (l, gs) := ask_list gs id q2 in Ok (mem_pos q l, gs).
(** analyse_methods.rs 39-76 *)
Definition jump_judge (v : bv) (st : fstate) : R fstate :=
  foldM (fun '(gs, cm) i =>
     let* r := vget (b_rec v) i in
     let* q := place v r in
     if (2 <=? r_useful r)%nat && event_eqb (r_mouse r) e_lr then
       let* (b, gs) := only_by gs (r_prior r) Gbasic_not Genum_not q in
       if b : bool then let* cm := say cm i HardLeft in Ok (gs, cm) else Ok (gs, cm)
     else if (r_useful r =? 1)%nat && event_eqb (r_mouse r) e_rc then
       let* (b, gs) := only_by gs (r_prior r) Gbasic_is Genum_is q in
       if b : bool then let* cm := say cm i HardFlag in Ok (gs, cm) else Ok (gs, cm)
     else Ok (gs, cm))
   (rng 2 (length (b_rec v))) st.

(** analyse_methods.rs 78-102 *)
Definition needless_guess (v : bv) (st : fstate) : R fstate :=
  foldM (fun '(gs, cm) i =>
     let* r := vget (b_rec v) i in
     if (2 <=? r_useful r)%nat && event_eqb (r_mouse r) e_lr then
       let* q := place v r in
       let* (p, gs) := ask_poss gs (r_prior r) q in
       if positive p then
         let* (l, gs) := ask_list gs (r_prior r) Gbasic_not in
         if mem_pos q l then Ok (gs, cm)
         else
           let* (l, gs) := ask_list gs (r_prior r) Genum_not in
           if mem_pos q l then Ok (gs, cm) else let* cm := say cm i Needless in Ok (gs, cm)
       else Ok (gs, cm)
     else Ok (gs, cm))
   (rng 2 (length (b_rec v))) st.

(** ** analyse_methods.rs 104-160: the mouse trace, in IEEE binary64. [powf(2.0)] of these whole numbers
    is exact in the model (the squares and their sum are below 2^34). *)
Definition f_dist (x y x' y' : Z) : binary64 :=
  b64_sqrt mode_NE (f64_of_Z ((x - x') * (x - x') + (y - y') * (y - y'))).
(** [a > b] *)
Definition f_gt (a b : binary64) : bool := match b64_compare a b with Some Gt => true | _ => false end.
Definition f_seven : binary64 := f64_of_Z 7.
Definition f_three_half : binary64 := b64_div mode_NE (f64_of_Z 7) (f64_of_Z 2).
Definition f_101 : binary64 := b64_div mode_NE (f64_of_Z 101) (f64_of_Z 100).
Definition f_five : binary64 := f64_of_Z 5.
(** 122-154 *)
Definition trace_comment (k : binary64) : option comment :=
  if f_gt k f_seven then Some VeryBent
  else if f_gt k f_three_half then Some Bent
  else if f_gt f_101 k then if f_gt k f_five then Some Straight else None
  else None.
(** state: last click (x, y), its number, last place (x, y), path, comments *)
Definition trace_event (v : bv) (st : (Z * Z * nat) * (Z * Z) * binary64 * list (list comment)) (i : nat)
  : R ((Z * Z * nat) * (Z * Z) * binary64 * list (list comment)) :=
  let '((cx, cy, ci), (mx, my), path, cm) := st in
  let* r := vget (b_rec v) i in
  let x := r_x r in
  let y := r_y r in
  let path := b64_plus mode_NE path (f_dist mx my x y) in
  if event_eqb (r_mouse r) e_lr || event_eqb (r_mouse r) e_rc || event_eqb (r_mouse r) e_rr then
    let k := b64_div mode_NE path (f_dist cx cy x y) in
    let* cm := (match trace_comment k with Some c => say cm ci c | None => Ok cm end) in
    Ok ((x, y, i), (x, y), f64_of_Z 0, cm)
  else Ok ((cx, cy, ci), (x, y), path, cm).
Definition mouse_trace (v : bv) (st : fstate) : R fstate :=
  let* r := vget (b_rec v) 0 in
  let* (_, _, _, cm) := foldM (trace_event v) (seq 0 (length (b_rec v))) ((r_x r, r_y r, 0%nat), (r_x r, r_y r), f64_of_Z 0, snd st) in
  Ok (fst st, cm).

(** ** analyse_methods.rs 163-211. The distance test [sqrt(d) >= 112.0] is [d >= 12544] (the f64 square
    root of a whole number below 2^34 is at least 112 exactly then). *)
Definition close_to (l : pos) (q : pos) : bool :=
  ((fst q <=? fst l + 3) && (fst l <=? fst q + 3) && (snd q <=? snd l + 3) && (snd l <=? snd q + 3))%nat.
(** state: last useful click (x, y), its cell, its number, boards, comments *)
Definition vision_event (v : bv) (st : (Z * Z) * pos * nat * fstate) (i : nat) : R ((Z * Z) * pos * nat * fstate) :=
  let '((cx, cy), l, li, (gs, cm)) := st in
  let* r := vget (b_rec v) i in
  if (2 <=? r_useful r)%nat then
    let* (gs, cm) :=
      (if 12544 <=? (cy - r_y r) * (cy - r_y r) + (cx - r_x r) * (cx - r_x r) then
         let* (l1, gs) := ask_list gs (r_prior r) Gbasic_not in
         let* (l2, gs) := ask_list gs (r_prior r) Genum_not in
         if existsb (close_to l) l1 || existsb (close_to l) l2 then
           let* cm := say cm li Vision in Ok (gs, cm)
         else Ok (gs, cm)
       else Ok (gs, cm)) in
    let* q := place v r in
    Ok ((r_x r, r_y r), q, i, (gs, cm))
  else Ok st.
Definition vision_transfer (v : bv) (st : fstate) : R fstate :=
  let* r := vget (b_rec v) 0 in
  let* q := place v r in
  let* (_, _, _, st) := foldM (vision_event v) (seq 0 (length (b_rec v))) ((r_x r, r_y r), q, 0%nat, st) in
  Ok st.

(** ** analyse_methods.rs 213-244. State: the probabilities so far, has_begin, boards. *)
Definition survive_event (v : bv) (st : list frac * bool * list pboard) (i : nat) : R (list frac * bool * list pboard) :=
  let '(ps, begun, gs) := st in
  let* r := vget (b_rec v) i in
  if event_eqb (r_mouse r) e_lr && (1 <=? r_useful r)%nat then
    if negb begun then Ok (ps, true, gs)
    else
      let* q := place v r in
      let* (p, gs) := ask_poss gs (r_prior r) q in
      Ok (if positive p && below_one p then ps ++ [p] else ps, true, gs)
  else Ok (ps, begun, gs).
Definition survive_poss (v : bv) (st : fstate) : R fstate :=
  let* (ps, _, gs) := foldM (survive_event v) (seq 0 (length (b_rec v))) ([], false, fst st) in
  match rev (snd st) with
  | [] => Panic
  | _ :: l => Ok (gs, rev l ++ [[Luck ps]])
  end.

(** ** analyse_methods.rs 246-388 *)
Inductive fl_state := NotStart | StartNow | StartNotOk | IsOk | Finish.
(** state, anchor, counter, last_rc_num *)
Record fl : Type := FL { fl_st : fl_state; fl_anchor : nat; fl_counter : Z; fl_last_rc : Z }.
(** 280-298: a flag *)
Definition fl_flag (i : nat) (s : fl) : fl :=
  match fl_st s with
  | NotStart => FL StartNow i 1 1
  | StartNow => FL StartNotOk (fl_anchor s) (fl_counter s + 1) (fl_last_rc s + 1)
  | StartNotOk | IsOk => FL (fl_st s) (fl_anchor s) (fl_counter s + 1) (fl_last_rc s + 1)
  | Finish => s
  end.
(** 317-327: a good chord *)
Definition fl_good (s : fl) : fl :=
  match fl_st s with
  | StartNow => FL StartNotOk (fl_anchor s) (fl_counter s + 1) 0
  | StartNotOk | IsOk => FL (fl_st s) (fl_anchor s) (fl_counter s + 1) 0
  | _ => s
  end.
(** 305-315 and 337-347: a bad chord, a left click *)
Definition fl_stop (s : fl) : fl :=
  match fl_st s with
  | IsOk => FL Finish (fl_anchor s) (fl_counter s - fl_last_rc s) (fl_last_rc s)
  | _ => FL NotStart (fl_anchor s) 0 0
  end.
(** 349-365: too far away *)
Definition fl_far (s : fl) : fl :=
  match fl_st s with
  | StartNotOk => FL NotStart (fl_anchor s) 0 0
  | IsOk => FL Finish (fl_anchor s) (fl_counter s - fl_last_rc s) (fl_last_rc s)
  | _ => s
  end.
(** 366-373: enough steps *)
Definition fl_enough (s : fl) : fl :=
  if 5 <=? fl_counter s - fl_last_rc s then
    match fl_st s with
    | StartNow | StartNotOk => FL IsOk (fl_anchor s) (fl_counter s) (fl_last_rc s)
    | _ => s
    end
  else s.
Definition is_ms (a b : mouse_state) : bool :=
  match a, b with DownUp, DownUp | Chording, Chording => true | _, _ => false end.
(** 262-387: one event; state: the machine, last_ide, comments. The subtractions in [i32] are exact
    (coordinates in cells below 2^15). *)
Definition fl_event (v : bv) (gs : list pboard) (st : fl * nat * list (list comment)) (i : nat)
  : R (fl * nat * list (list comment)) :=
  let '(s, li, cm) := st in
  let* r := vget (b_rec v) i in
  if event_eqb (r_mouse r) e_mv then Ok st
  else
    let* q := place v r in
    let* rl := vget (b_rec v) li in
    let* ql := place v rl in
    let* flag := (if event_eqb (r_mouse r) e_rc then
                    let* g := vget gs (r_prior r) in
                    let* w := get (gb_board (pb_g g)) (fst q) (snd q) in
                    Ok ((w =? 10) && (r_useful r =? 1)%nat)
                  else Ok false) in
    let* s := (if flag : bool then Ok (fl_flag i s)
               else if (r_useful r =? 3)%nat then
                 let* g := vget gs (r_prior r) in
                 let* good := is_good_chording (gb_board (pb_g g)) q in
                 Ok (if good : bool then fl_good s else fl_stop s)
               else if event_eqb (r_mouse r) e_lr && (is_ms (r_mstate rl) DownUp || is_ms (r_mstate rl) Chording)
                       || event_eqb (r_mouse r) e_rr && is_ms (r_mstate rl) Chording
               then Ok (fl_stop s)
               else Ok s) in
    let d a b := Z.of_nat a - Z.of_nat b in
    let s := if 16 <? d (fst q) (fst ql) * d (fst q) (fst ql) + d (snd q) (snd ql) * d (snd q) (snd ql) then fl_far s else s in
    let s := fl_enough s in
    match fl_st s with
    | Finish => let* cm := say cm (fl_anchor s) (SuperFL (fl_counter s)) in
                Ok (FL NotStart (fl_anchor s) (fl_counter s) (fl_last_rc s), i, cm)
    | _ => Ok (s, i, cm)
    end.
Definition super_fl_local (v : bv) (st : fstate) : R fstate :=
  let* (_, _, cm) := foldM (fl_event v (fst st)) (rng 1 (length (b_rec v))) (FL NotStart 0 0 0, 0%nat, snd st) in
  Ok (fst st, cm).

(** ** base_video.rs 603-631 *)
Inductive feature := High_risk_guess | Jump_judge | Needless_guess | Mouse_trace | Vision_transfer | Survive_poss
                   | Super_fl_local | Unknown_feature.
Definition run_feature (v : bv) (st : fstate) (c : feature) : R fstate :=
  match c with
  | High_risk_guess => high_risk_guess v st
  | Jump_judge => jump_judge v st
  | Needless_guess => needless_guess v st
  | Mouse_trace => mouse_trace v st
  | Vision_transfer => vision_transfer v st
  | Survive_poss => survive_poss v st
  | Super_fl_local => super_fl_local v st
  | Unknown_feature => Ok st
  end.
Definition analyse_for_features (v : bv) (st : fstate) (l : list feature) : R fstate := foldM (run_feature v) l st.
