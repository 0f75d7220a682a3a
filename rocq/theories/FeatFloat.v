(** * FeatFloat: the feature analyses with IEEE binary64 probabilities (analyse_methods.rs, base_video.rs
    603-631, board.rs 102-142). The same passes as in Features.v, which computes with exact fractions; here the
    probabilities are those of [possibility_onboard_f64] (PossFloat.v) and the comparisons, [1.0 - p] and the product
    of the factors are f64 operations. *)
From Coq Require Import ZArith.
From Flocq Require Import IEEE754.BinarySingleNaN IEEE754.Binary IEEE754.Bits.
From Verif Require Import Base MineBoard Matrix Solve BoardCache Utils Possibility BigNum PossFloat OpenFloat Evf BaseVideo FloatTime Features.
Open Scope Z_scope.

(** The comments that print an f64, and the others. *)
Inductive comment_f :=
| FRisky (x : binary64)                        (* 猜对概率 1.0 - p *)
| FLuck (xs : list binary64) (s : binary64)    (* luck: the factors 1.0 - p, and their product *)
| FSay (c : comment).

(** ** board.rs [get_poss] *)

(** a [GameBoard] with its probabilities ([poss], [has_poss]) *)
Record pboard_f := PBoard_f { pb_g_f : gboard; pb_poss_f : option (list (list binary64)) }.
(** board.rs 102-112 *)
Definition get_poss_f (g : pboard_f) : R (list (list binary64) * pboard_f) :=
  match pb_poss_f g with
  | Some p => Ok (p, g)
  | None =>
      let* s := gb_mark (pb_g_f g) in
      let* (p, _) := unwrap (possibility_onboard_f64 (gb_marked s) (f_of (gb_minenum s))) in
      Ok (p, PBoard_f s (Some p))
  end.
(** board.rs 113-142 *)
Definition get_list_f (g : pboard_f) (q : gquery) : R (list pos * pboard_f) :=
  let* (l, s) := gask (pb_g_f g) q in Ok (l, PBoard_f s (pb_poss_f g)).

(** ** The state of the analyses: the boards of [game_board_stream] and the [comments] of every event.
    The events themselves are not changed. *)
Definition fstate_f : Type := list pboard_f * list (list comment_f).
(** the state after [analyse] *)
Definition fstart_f (v : bv) : fstate_f := (map (fun g => PBoard_f g None) (b_stream v), map (fun _ => []) (b_rec v)).

(** [video.game_board_stream[id].get_poss()[x][y]] *)
Definition ask_poss_f (gs : list pboard_f) (id : nat) (p : pos) : R (binary64 * list pboard_f) :=
  let* g := vget gs id in
  let* (t, g) := get_poss_f g in
  let* gs := vset gs id g in
  let* a := get t (fst p) (snd p) in
  Ok (a, gs).
(** [video.game_board_stream[id].get_...()] *)
Definition ask_list_f (gs : list pboard_f) (id : nat) (q : gquery) : R (list pos * list pboard_f) :=
  let* g := vget gs id in
  let* (l, g) := get_list_f g q in
  let* gs := vset gs id g in
  Ok (l, gs).
(** [comments = format!("{}{}", comments, ...)] *)
Definition say_f (cm : list (list comment_f)) (i : nat) (c : comment_f) : R (list (list comment_f)) :=
  let* l := vget cm i in vset cm i (l ++ [c]).

(** 0.51: the double nearest to 51/100 *)
Definition f_051 : binary64 := b64_div mode_NE (f64_of_Z 51) (f64_of_Z 100).
(** [p >= 0.51], [p > 0.0], [p < 1.0] *)
Definition at_least_51_f (p : binary64) : bool := f_ge p f_051.
Definition positive_f (p : binary64) : bool := f_lt f_zero p.
Definition below_one_f (p : binary64) : bool := f_lt p f_one.

(** analyse_methods.rs 20-37 *)
Definition high_risk_guess_f (v : bv) (st : fstate_f) : R fstate_f :=
  foldM (fun '(gs, cm) i =>
     let* r := vget (b_rec v) i in
     let* q := place v r in
     if (2 <=? r_useful r)%nat then
       let* (p, gs) := ask_poss_f gs (r_prior r) q in
       if at_least_51_f p then let* cm := say_f cm i (FRisky (fsub f_one p)) in Ok (gs, cm) else Ok (gs, cm)
     else Ok (gs, cm))
   (rng 2 (length (b_rec v))) st.

(** the cell is in the second list but not in the first; [&&] does not ask for the second otherwise *)
Definition only_by_f (gs : list pboard_f) (id : nat) (q1 q2 : gquery) (q : pos) : R (bool * list pboard_f) :=
  let* (l, gs) := ask_list_f gs id q1 in
  if mem_pos q l then Ok (false, gs)
  else let* (l, gs) := ask_list_f gs id q2 in Ok (mem_pos q l, gs).
(** analyse_methods.rs 39-76 *)
Definition jump_judge_f (v : bv) (st : fstate_f) : R fstate_f :=
  foldM (fun '(gs, cm) i =>
     let* r := vget (b_rec v) i in
     let* q := place v r in
     if (2 <=? r_useful r)%nat && event_eqb (r_mouse r) e_lr then
       let* (b, gs) := only_by_f gs (r_prior r) Gbasic_not Genum_not q in
       if b : bool then let* cm := say_f cm i (FSay HardLeft) in Ok (gs, cm) else Ok (gs, cm)
     else if (r_useful r =? 1)%nat && event_eqb (r_mouse r) e_rc then
       let* (b, gs) := only_by_f gs (r_prior r) Gbasic_is Genum_is q in
       if b : bool then let* cm := say_f cm i (FSay HardFlag) in Ok (gs, cm) else Ok (gs, cm)
     else Ok (gs, cm))
   (rng 2 (length (b_rec v))) st.

(** analyse_methods.rs 78-102 *)
Definition needless_guess_f (v : bv) (st : fstate_f) : R fstate_f :=
  foldM (fun '(gs, cm) i =>
     let* r := vget (b_rec v) i in
     if (2 <=? r_useful r)%nat && event_eqb (r_mouse r) e_lr then
       let* q := place v r in
       let* (p, gs) := ask_poss_f gs (r_prior r) q in
       if positive_f p then
         let* (l, gs) := ask_list_f gs (r_prior r) Gbasic_not in
         if mem_pos q l then Ok (gs, cm)
         else
           let* (l, gs) := ask_list_f gs (r_prior r) Genum_not in
           if mem_pos q l then Ok (gs, cm) else let* cm := say_f cm i (FSay Needless) in Ok (gs, cm)
       else Ok (gs, cm)
     else Ok (gs, cm))
   (rng 2 (length (b_rec v))) st.

(** ** analyse_methods.rs 104-160 *)
(** state: last click (x, y), its number, last place (x, y), path, comments *)
Definition trace_event_f (v : bv) (st : (Z * Z * nat) * (Z * Z) * binary64 * list (list comment_f)) (i : nat)
  : R ((Z * Z * nat) * (Z * Z) * binary64 * list (list comment_f)) :=
  let '((cx, cy, ci), (mx, my), path, cm) := st in
  let* r := vget (b_rec v) i in
  let x := r_x r in
  let y := r_y r in
  let path := b64_plus mode_NE path (f_dist mx my x y) in
  if event_eqb (r_mouse r) e_lr || event_eqb (r_mouse r) e_rc || event_eqb (r_mouse r) e_rr then
    let k := b64_div mode_NE path (f_dist cx cy x y) in
    let* cm := (match trace_comment k with Some c => say_f cm ci (FSay c) | None => Ok cm end) in
    Ok ((x, y, i), (x, y), f64_of_Z 0, cm)
  else Ok ((cx, cy, ci), (x, y), path, cm).
Definition mouse_trace_f (v : bv) (st : fstate_f) : R fstate_f :=
  let* r := vget (b_rec v) 0 in
  let* (_, _, _, cm) := foldM (trace_event_f v) (seq 0 (length (b_rec v))) ((r_x r, r_y r, 0%nat), (r_x r, r_y r), f64_of_Z 0, snd st) in
  Ok (fst st, cm).

(** ** analyse_methods.rs 163-211 *)
(** state: last useful click (x, y), its cell, its number, boards, comments *)
Definition vision_event_f (v : bv) (st : (Z * Z) * pos * nat * fstate_f) (i : nat) : R ((Z * Z) * pos * nat * fstate_f) :=
  let '((cx, cy), l, li, (gs, cm)) := st in
  let* r := vget (b_rec v) i in
  if (2 <=? r_useful r)%nat then
    let* (gs, cm) :=
      (if 12544 <=? (cy - r_y r) * (cy - r_y r) + (cx - r_x r) * (cx - r_x r) then
         let* (l1, gs) := ask_list_f gs (r_prior r) Gbasic_not in
         let* (l2, gs) := ask_list_f gs (r_prior r) Genum_not in
         if existsb (close_to l) l1 || existsb (close_to l) l2 then
           let* cm := say_f cm li (FSay Vision) in Ok (gs, cm)
         else Ok (gs, cm)
       else Ok (gs, cm)) in
    let* q := place v r in
    Ok ((r_x r, r_y r), q, i, (gs, cm))
  else Ok st.
Definition vision_transfer_f (v : bv) (st : fstate_f) : R fstate_f :=
  let* r := vget (b_rec v) 0 in
  let* q := place v r in
  let* (_, _, _, st) := foldM (vision_event_f v) (seq 0 (length (b_rec v))) ((r_x r, r_y r), q, 0%nat, st) in
  Ok st.

(** ** analyse_methods.rs 213-244. State: the factors so far, their product, has_begin, boards. *)
Definition survive_event_f (v : bv) (st : (list binary64 * binary64) * bool * list pboard_f) (i : nat) : R ((list binary64 * binary64) * bool * list pboard_f) :=
  let '(ps, s, begun, gs) := st in
  let* r := vget (b_rec v) i in
  if event_eqb (r_mouse r) e_lr && (1 <=? r_useful r)%nat then
    if negb begun then Ok (ps, s, true, gs)
    else
      let* q := place v r in
      let* (p, gs) := ask_poss_f gs (r_prior r) q in
      Ok (if positive_f p && below_one_f p then (ps ++ [fsub f_one p], fmul s (fsub f_one p)) else (ps, s), true, gs)
  else Ok (ps, s, begun, gs).
Definition survive_poss_f (v : bv) (st : fstate_f) : R fstate_f :=
  let* (ps, s, _, gs) := foldM (survive_event_f v) (seq 0 (length (b_rec v))) ([], f_one, false, fst st) in
  match rev (snd st) with
  | [] => Panic
  | _ :: l => Ok (gs, rev l ++ [[FLuck ps s]])
  end.

(** ** analyse_methods.rs 246-388: the machine of Features.v *)
(** 262-387: one event; state: the machine, last_ide, comments. The subtractions in [i32] are exact
    (coordinates in cells below 2^15). *)
Definition fl_event_f (v : bv) (gs : list pboard_f) (st : fl * nat * list (list comment_f)) (i : nat)
  : R (fl * nat * list (list comment_f)) :=
  let '(s, li, cm) := st in
  let* r := vget (b_rec v) i in
  if event_eqb (r_mouse r) e_mv then Ok st
  else
    let* q := place v r in
    let* rl := vget (b_rec v) li in
    let* ql := place v rl in
    let* flag := (if event_eqb (r_mouse r) e_rc then
                    let* g := vget gs (r_prior r) in
                    let* w := get (gb_board (pb_g_f g)) (fst q) (snd q) in
                    Ok ((w =? 10) && (r_useful r =? 1)%nat)
                  else Ok false) in
    let* s := (if flag : bool then Ok (fl_flag i s)
               else if (r_useful r =? 3)%nat then
                 let* g := vget gs (r_prior r) in
                 let* good := is_good_chording (gb_board (pb_g_f g)) q in
                 Ok (if good : bool then fl_good s else fl_stop s)
               else if event_eqb (r_mouse r) e_lr && (is_ms (r_mstate rl) DownUp || is_ms (r_mstate rl) Chording)
                       || event_eqb (r_mouse r) e_rr && is_ms (r_mstate rl) Chording
               then Ok (fl_stop s)
               else Ok s) in
    let d a b := Z.of_nat a - Z.of_nat b in
    let s := if 16 <? d (fst q) (fst ql) * d (fst q) (fst ql) + d (snd q) (snd ql) * d (snd q) (snd ql) then fl_far s else s in
    let s := fl_enough s in
    match fl_st s with
    | Finish => let* cm := say_f cm (fl_anchor s) (FSay (SuperFL (fl_counter s))) in
                Ok (FL NotStart (fl_anchor s) (fl_counter s) (fl_last_rc s), i, cm)
    | _ => Ok (s, i, cm)
    end.
Definition super_fl_local_f (v : bv) (st : fstate_f) : R fstate_f :=
  let* (_, _, cm) := foldM (fl_event_f v (fst st)) (rng 1 (length (b_rec v))) (FL NotStart 0 0 0, 0%nat, snd st) in
  Ok (fst st, cm).

(** ** base_video.rs 603-631 *)
Definition run_feature_f (v : bv) (st : fstate_f) (c : feature) : R fstate_f :=
  match c with
  | High_risk_guess => high_risk_guess_f v st
  | Jump_judge => jump_judge_f v st
  | Needless_guess => needless_guess_f v st
  | Mouse_trace => mouse_trace_f v st
  | Vision_transfer => vision_transfer_f v st
  | Survive_poss => survive_poss_f v st
  | Super_fl_local => super_fl_local_f v st
  | Unknown_feature => Ok st
  end.
Definition analyse_for_features_f (v : bv) (st : fstate_f) (l : list feature) : R fstate_f := foldM (run_feature_f v) l st.
