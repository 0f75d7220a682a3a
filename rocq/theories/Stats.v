(** * Stats: model of the f64 statistics of [BaseVideo], base/src/videos/base_video.rs: the running clock,
    the speeds (per second), the ratios, the estimated time and STNB. IEEE binary64 (Flocq).

    The object is [BaseVideo.bv] with two more fields: the five speeds stored when a game ends
    (GameDynamicParams 167-171) and [current_time]. The stored [rtime] is [ms_to_s] of the stored rtime_ms
    (846-849, 863-866: both are written together; [set_rtime], which writes another f64, needs
    allow_set_rtime, which no call of a session sets). Not modelled: [video_dynamic_params], which is
    written and never read; [path] (BaseVideo.v keeps its summands). *)
From Coq Require Import ZArith.
From Flocq Require Import Core IEEE754.BinarySingleNaN IEEE754.Binary IEEE754.Bits.
From Verif Require Import Base LayMine Features FloatTime Metrics Matrix Solve MineBoard BoardCache Evf BaseVideo BigNum.
Open Scope Z_scope.

(** base_video.rs 160-200 [GameDynamicParams]: left_s, right_s, double_s, cl_s, flag_s *)
Record speeds : Type := Speeds {
  s_left : binary64; s_right : binary64; s_double : binary64; s_cl : binary64; s_flag : binary64 }.
(** 178-200 [default] *)
Definition no_speeds : speeds := Speeds f_zero f_zero f_zero f_zero f_zero.
Record game : Type := Game { g_bv : bv; g_speeds : speeds; g_time : binary64 }.

(** base_video.rs 997-1015 [gather_params_after_game]; [t] is rtime *)
Definition gather (m : mb) (t : binary64) : speeds :=
  Speeds (fdiv (f_of (m_left m)) t) (fdiv (f_of (m_right m)) t) (fdiv (f_of (m_double m)) t)
         (fdiv (f_of (m_left m + m_right m + m_double m)) t) (fdiv (f_of (m_flag m)) t).
Definition rtime (v : bv) : binary64 := ms_to_s (v_rtime_ms (b_meta v)).

(** base_video.rs 728-757 [new_before_game]: current_time and the speeds keep their defaults (359, 371) *)
Definition game_new (b : board) (pix now : Z) : R game :=
  let* v := new_before_game b pix now in Ok (Game v no_speeds f_zero).

(** One call of a session (BaseVideo.vcall). [step] gathers when the state machine accepted the event
    and is now in Win or Loss (833-868); [reset] puts the defaults back (645). No call writes
    current_time. *)
Definition gcall1 (g : game) (c : vcall) : R game :=
  let v := g_bv g in
  match c with
  | VStep now stamp e p =>
      let* (v', o) := bv_step v now stamp e p in
      let s := match m_state (b_mb v), o with
               | Loss, _ | Win, _ | Display, _ | _, None => g_speeds g
               | _, Some _ => if is_over (m_state (b_mb v')) then gather (b_mb v') (rtime v') else g_speeds g
               end in
      Ok (Game v' s (g_time g))
  | VReset _ _ _ => let* v' := vcall1 v c in Ok (Game v' no_speeds (g_time g))
  | _ => let* v' := vcall1 v c in Ok (Game v' (g_speeds g) (g_time g))
  end.
Definition gexec (g : game) (cs : list vcall) : R game := foldM gcall1 cs g.

(** ** The running clock *)

(** [now.duration_since(past).as_millis()]: whole milliseconds, rounded down; times in microseconds *)
Definition millis_since (now past : Z) : Z := Z.max 0 (now - past) / 1000.
(** 1157, 1442 ...: [as u32] keeps the low 32 bits *)
Definition elapsed_ms (v : bv) (now : Z) : R Z :=
  u32sub (millis_since now (b_video_start v) mod 2 ^ 32) (b_game_start v).
(** base_video.rs 1153-1169 [get_time] *)
Definition get_time (g : game) (now : Z) : R binary64 :=
  let v := g_bv g in
  match b_state v with
  | Playing => let* t := elapsed_ms v now in Ok (ms_to_s t)
  | PreFlaging => Ok (ms_to_s (millis_since now (b_video_start v)))
  | Loss | Win => Ok (rtime v)
  | Ready => Ok f_zero
  | Display => Ok (g_time g)
  end.

(** ** Speeds *)

(** the literal 0.00099 *)
Definition f_00099 : binary64 := fdiv (f64_of_Z 99) (f64_of_Z 100000).
Definition stored (s : speeds) (k : counter) : binary64 :=
  match k with Left => s_left s | Right => s_right s | Double => s_double s | Cl => s_cl s | Flag => s_flag s end.
(** base_video.rs 1435-1534 [get_left_s], [get_right_s], [get_double_s], [get_cl_s], [get_flag_s] *)
Definition get_speed (g : game) (k : counter) (now : Z) : R binary64 :=
  let v := g_bv g in
  match b_state v with
  | Display =>
      if f_lt (g_time g) f_00099 then Ok f_zero
      else let* n := get_counter v k in Ok (fdiv (f_of n) (g_time g))
  | Loss | Win => Ok (stored (g_speeds g) k)
  | PreFlaging | Ready => Ok f_zero
  | Playing =>
      let* n := get_counter v k in
      let* t := elapsed_ms v now in
      Ok (fdiv (fmul (f_of n) (f64_of_Z 1000)) (f64_of_Z t))
  end.
(** [x?] on a Result *)
Definition bindo {A B} (r : R (option A)) (f : A -> R (option B)) : R (option B) :=
  let* o := r in match o with None => Ok None | Some a => f a end.
(** base_video.rs 1567-1576 [get_bbbv_s] *)
Definition get_bbbv_s (g : game) : R (option binary64) :=
  bindo (get_bbbv_solved (g_bv g)) (fun n =>
    match b_state (g_bv g) with
    | Display => if f_lt (g_time g) f_00099 then Ok (Some f_zero)
                 else Ok (Some (fdiv (f_of n) (g_time g)))
    | _ => Ok (Some (fdiv (f_of n) (rtime (g_bv g))))
    end).
(** base_video.rs 1638-1644 [get_ce_s] *)
Definition get_ce_s (g : game) : R (option binary64) :=
  bindo (get_ce (g_bv g)) (fun n =>
    if f_lt (g_time g) f_00099 then Ok (Some f_zero) else Ok (Some (fdiv (f_of n) (g_time g)))).

(** ** Ratios *)
(** base_video.rs 1645-1652 [get_corr] *)
Definition get_corr (g : game) : R (option binary64) :=
  bindo (get_ce (g_bv g)) (fun ce =>
    let* cl := get_counter (g_bv g) Cl in
    if (cl =? 0)%nat then Ok (Some f_zero) else Ok (Some (fdiv (f_of ce) (f_of cl)))).
(** base_video.rs 1653-1660 [get_thrp] *)
Definition get_thrp (g : game) : R (option binary64) :=
  bindo (get_ce (g_bv g)) (fun ce =>
    let* o := get_bbbv_solved (g_bv g) in
    match o with
    | None => Panic
    | Some n => if (ce =? 0)%nat then Ok (Some f_zero) else Ok (Some (fdiv (f_of n) (f_of ce)))
    end).
(** base_video.rs 1661-1668 [get_ioe] *)
Definition get_ioe (g : game) : R (option binary64) :=
  bindo (get_bbbv_solved (g_bv g)) (fun n =>
    let* cl := get_counter (g_bv g) Cl in
    if (cl =? 0)%nat then Ok (Some f_zero) else Ok (Some (fdiv (f_of n) (f_of cl)))).

(** ** Estimates *)
(** base_video.rs 1554-1566 [get_etime] *)
Definition get_etime (g : game) : R (option binary64) :=
  bindo (get_bbbv_solved (g_bv g)) (fun n =>
    if (n =? 0)%nat then Ok (Some f_zero)
    else let t := match b_state (g_bv g) with Display => g_time g | _ => rtime (g_bv g) end in
         Ok (Some (fmul (fdiv t (f_of n)) (f64_of_Z (v_bbbv (b_meta (g_bv g))))))).

(** [f64::powf] (the platform's pow) is a parameter. *)
Section Powf.
Variable powf : binary64 -> binary64 -> binary64.
Definition f_17 : binary64 := fdiv (f64_of_Z 17) (f64_of_Z 10).
Definition f_half : binary64 := fdiv (f64_of_Z 1) (f64_of_Z 2).
Definition f_two : binary64 := f64_of_Z 2.
(** 1588-1593: the constants of the three standard levels *)
Definition level_const (height width : nat) (mine_num : Z) : option binary64 :=
  if (height =? 8)%nat && (width =? 8)%nat && (mine_num =? 10) then Some (fdiv (f64_of_Z 47299) (f64_of_Z 1000))
  else if (height =? 16)%nat && (width =? 16)%nat && (mine_num =? 40) then Some (fdiv (f64_of_Z 15373) (f64_of_Z 100))
  else if (height =? 16)%nat && (width =? 30)%nat && (mine_num =? 99) then Some (fdiv (f64_of_Z 435001) (f64_of_Z 1000))
  else None.
(** base_video.rs 1580-1609 [get_stnb] *)
Definition get_stnb (g : game) : R (option binary64) :=
  let f := b_meta (g_bv g) in
  bindo (get_bbbv_solved (g_bv g)) (fun n =>
    if is_state (b_state (g_bv g)) Display && f_lt (g_time g) f_00099 then Ok (Some f_zero)
    else match level_const (v_height f) (v_width f) (v_mine_num f) with
         | None => Ok (Some f_zero)
         | Some c =>
             let t := match b_state (g_bv g) with Display => g_time g | _ => rtime (g_bv g) end in
             let bbbv := f64_of_Z (v_bbbv f) in
             Ok (Some (fmul (fdiv (fmul c bbbv) (powf t f_17)) (powf (fdiv (f_of n) bbbv) f_half)))
         end).
(** base_video.rs 1610-1616 [get_rqp], 1617-1623 [get_qg] *)
Definition get_power (g : game) (e : binary64) : R (option binary64) :=
  bindo (get_bbbv_solved (g_bv g)) (fun n =>
    if (n =? 0)%nat then Ok (Some f_zero) else Ok (Some (fdiv (powf (g_time g) e) (f_of n)))).
Definition get_rqp (g : game) : R (option binary64) := get_power g f_two.
Definition get_qg (g : game) : R (option binary64) := get_power g f_17.
End Powf.
