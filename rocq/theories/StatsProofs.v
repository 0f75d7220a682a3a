(** * StatsProofs: what a session leaves behind for the statistics (lemmas for C74-C77). *)
From Coq Require Import ZArith Sorted.
From Flocq Require Import Core IEEE754.BinarySingleNaN IEEE754.Binary IEEE754.Bits.
From Verif Require Import Base Spec BaseFacts LayMine LayMineProofs Metrics Matrix Solve MineBoard MineBoardProofs BoardCache Evf BaseVideo
  PropsGame PropsSetters Features FloatTime BigNum Stats PropsReplay.
Open Scope Z_scope.

(** what the getters read of the state machine *)
Definition keys (m : mb) := (m_left m, m_right m, m_double m, m_flag m, m_ce m, m_solved m).
Definition rkeys (r : rec) := (r_left r, r_right r, r_double r, r_flag r, r_ce r, r_solved r).
Definition clock (v : bv) := (b_video_start v, b_game_start v).

Lemma static_same v v' : cal_static_params v = Ok v' ->
  b_meta v' = b_meta v /\ b_mb v' = b_mb v /\ b_state v' = b_state v /\ b_rec v' = b_rec v /\ clock v' = clock v /\
  b_allow_rtime v' = b_allow_rtime v /\ b_stream v' = b_stream v /\ b_cur v' = b_cur v.
Proof.
  unfold cal_static_params. intros E. apply bind_ok in E as (nums & _ & E). apply bind_ok in E as (op & _ & E). apply bind_ok in E as (isl & _ & E).
  injection E as <-. repeat (split; [reflexivity|]). reflexivity.
Qed.
Lemma end_game_same v won t stamp v' : end_game v won t stamp = Ok v' ->
  b_mb v' = b_mb v /\ b_state v' = b_state v /\ b_rec v' = b_rec v /\ clock v' = clock v /\
  b_allow_rtime v' = b_allow_rtime v /\ b_stream v' = b_stream v /\ b_game_start v <= t /\ v_rtime_ms (b_meta v') = t - b_game_start v /\ b_cur v' = b_cur v /\
  exists n, cal_bbbv (v_board (b_meta v')) = Ok n /\ v_bbbv (b_meta v') = Z.of_nat n.
Proof.
  unfold end_game. intros E. apply bind_ok in E as (tm & Et & E). unfold u32sub in Et.
  destruct (Z.leb_spec (b_game_start v) t); [|discriminate]. injection Et as <-.
  apply bind_ok in E as (n & En & E). destruct (static_same E) as (M & A1 & A2 & A3 & A4 & A5 & A6 & A7).
  rewrite A1, A2, A3, A4, A5, A6, A7, M. repeat (split; [reflexivity|]). split; [exact H|]. do 2 (split; [reflexivity|]). exists n. split; [exact En|reflexivity].
Qed.

Definition new_clock (v : bv) (old st : game_state) (now : Z) : Z * Z :=
  match st with
  | PreFlaging => match old with PreFlaging => clock v | _ => (now, b_game_start v) end
  | Playing => match old with
               | Playing => clock v
               | Ready => (now, time_ms_between now now)
               | _ => (b_video_start v, time_ms_between now (b_video_start v))
               end
  | _ => clock v
  end.
Lemma bv_step_cases v now stamp e p v' o : bv_step v now stamp e p = Ok (v', o) ->
  (~ live (m_state (b_mb v)) /\ v' = v /\ o = Some 0%nat) \/
  (live (m_state (b_mb v)) /\ exists q m oo, step (b_mb v) e q = Ok (m, oo) /\
   match oo with
   | None => v' = bw_mb v m /\ o = None
   | Some _ => o = Some 0%nat /\ b_mb v' = m /\ b_state v' = m_state m /\ b_allow_rtime v' = b_allow_rtime v /\ b_cur v' = b_cur v /\
       clock v' = new_clock v (m_state (b_mb v)) (m_state m) now /\
       (m_state m <> Ready -> exists r, b_rec v' = b_rec v ++ [r] /\ rkeys r = keys m) /\
       (over (m_state m) -> b_game_start v <= time_ms_between now (b_video_start v) /\
                            v_rtime_ms (b_meta v') = time_ms_between now (b_video_start v) - b_game_start v /\
                            exists n, cal_bbbv (v_board (b_meta v')) = Ok n /\ v_bbbv (b_meta v') = Z.of_nat n)
   end).
Proof.
  unfold bv_step. intros E. destruct (m_state (b_mb v)) eqn:Eo;
    try (left; injection E as <- <-; split; [unfold live; intuition discriminate|auto]);
    right; (split; [unfold live; auto|]).
  all: apply bind_ok in E as (x & _ & E); apply bind_ok in E as (y & _ & E); apply bind_ok in E as ((m & oo) & Es & E);
    exists (x, y), m, oo; split; [exact Es|]; destruct oo as [a|]; [|injection E as <- <-; auto].
  all: set (v1 := bw_state (bw_mb v m) (m_state m)) in *.
  all: assert (V1 : b_mb v1 = m /\ b_state v1 = m_state m /\ b_rec v1 = b_rec v /\ clock v1 = clock v /\ b_allow_rtime v1 = b_allow_rtime v /\ b_cur v1 = b_cur v)
    by (repeat (split; [reflexivity|]); reflexivity); clearbody v1; destruct V1 as (B1 & B2 & B3 & B4 & B5 & B6).
  all: assert (V2 : forall st v2 tm, m_state m = st ->
     (let* r := Ok (v2, tm) in let* r2 := (match m_state (b_mb v) with
                | Playing =>
                    let* r := last_inside (Z.of_nat (v_height (b_meta v2)) * v_pix (b_meta v2))
                                          (Z.of_nat (v_width (b_meta v2)) * v_pix (b_meta v2))
                                          (rev (b_rec v2)) in
                    Ok (v2, r_hops r ++ [(Z.of_nat (fst p) - r_y r, Z.of_nat (snd p) - r_x r)])
                | _ =>
                    if (length (b_stream v2) =? 0)%nat then
                      let g := set_game_board (gboard_new (Z.to_nat (v_mine_num (b_meta v2))))
                                 (mkboard (v_height (b_meta v2)) (v_width (b_meta v2)) 10) in
                      Ok (bw_stream v2 (b_stream v2 ++ [g]), [])
                    else Ok (v2, [])
                end) in
      let '(v3, hops) := r2 in
      let* (v4, prior, next) :=
                (if (1 <=? a)%nat then
                   let g := set_game_board (gboard_new (Z.to_nat (v_mine_num (b_meta v3)))) (m_gb m) in
                   let v := bw_stream v3 (b_stream v3 ++ [g]) in
                   let* next := usub (length (b_stream v)) 1 in
                   let* prior := usub (length (b_stream v)) 2 in
                   Ok (v, prior, next)
                 else
                   let* next := usub (length (b_stream v3)) 1 in
                   Ok (v3, next, next)) in
       let r := snap tm e (Z.of_nat (snd p) mod 65536) (Z.of_nat (fst p) mod 65536)
                            a prior next m hops in
              Ok (bw_rec v4 (b_rec v4 ++ [r]), Some 0%nat)) = Ok (v', o) ->
     o = Some 0%nat /\ b_mb v' = b_mb v2 /\ b_state v' = b_state v2 /\ b_allow_rtime v' = b_allow_rtime v2 /\ b_cur v' = b_cur v2 /\ clock v' = clock v2 /\
     b_meta v' = b_meta v2 /\ exists r, b_rec v' = b_rec v2 ++ [r] /\ rkeys r = keys m).
  1,3,5: (clear E; intros st v2 tm Em E; cbn [bind] in E; apply bind_ok in E as ((v3 & hops) & E3 & E);
    assert (A : b_mb v3 = b_mb v2 /\ b_state v3 = b_state v2 /\ b_allow_rtime v3 = b_allow_rtime v2 /\ b_cur v3 = b_cur v2 /\ clock v3 = clock v2 /\ b_rec v3 = b_rec v2 /\ b_meta v3 = b_meta v2);
    [rewrite Eo in E3; try (apply bind_ok in E3 as (r3 & _ & E3)); repeat match type of E3 with context [if ?c then _ else _] => destruct c end; injection E3 as <- <-; repeat (split; [reflexivity|]); reflexivity|];
    destruct A as (A1 & A2 & A3 & A4 & A5 & A6 & A7); apply bind_ok in E as ((q4 & next) & E4 & E); destruct q4 as [v4 prior];
    assert (D : b_mb v4 = b_mb v3 /\ b_state v4 = b_state v3 /\ b_allow_rtime v4 = b_allow_rtime v3 /\ b_cur v4 = b_cur v3 /\ clock v4 = clock v3 /\ b_rec v4 = b_rec v3 /\ b_meta v4 = b_meta v3);
    [destruct (1 <=? a)%nat; repeat (apply bind_ok in E4 as (? & _ & E4)); injection E4 as <- <- <-; repeat (split; [reflexivity|]); reflexivity|];
    destruct D as (D1 & D2 & D3 & D4 & D5 & D6 & D7); injection E as <- <-;
    unfold clock in *; cbn [b_mb b_state b_allow_rtime b_cur b_video_start b_game_start b_meta b_rec bw_rec];
    rewrite D1, D2, D3, D4, D5, D6, D7, A1, A2, A3, A4, A5, A6, A7;
    repeat (split; [reflexivity|]); eexists; (split; [reflexivity|]); reflexivity).
  all: rewrite ?Eo in V2; destruct (m_state m) eqn:Em; unfold new_clock.
  (* every case: find the intermediate state *)
  all: try (injection E as <- <-; cbn [bw_rec bw_stream b_mb b_state b_allow_rtime b_cur]; rewrite B1, B2, B5, B6;
            repeat (split; [reflexivity|]); split; [exact B4|]; split; [congruence|unfold over; intuition discriminate]).
  all: try (first [ apply (V2 _ _ _ eq_refl) in E | (apply bind_ok in E as (q2 & E2 & E); apply bind_ok in E2 as (ve & Ee & E2); injection E2 as <-; apply (V2 _ _ _ eq_refl) in E) ];
            destruct E as (-> & -> & -> & -> & -> & -> & -> & r & -> & Hr)).
  all: try (apply end_game_same in Ee as (G1 & G2 & G3 & G4 & G5 & _ & G7 & G8 & G9 & G10); assert (B4' : b_game_start v1 = b_game_start v) by (injection B4; auto);
            rewrite G1, G2, G3, G4, G5, G8, G9, ?B4', B1, B2, B3, B4, B5, B6; repeat (split; [reflexivity|]);
            split; [intros _; eauto|rewrite B4' in G7; auto]).
  all: assert (B7 : b_game_start v1 = b_game_start v /\ b_video_start v1 = b_video_start v) by (injection B4; auto); destruct B7 as [B7 B8].
  all: unfold clock; cbn [b_mb b_state b_allow_rtime b_cur b_video_start b_game_start b_rec bw_video_start bw_game_start on_meta bw_meta];
       rewrite ?B1, ?B2, ?B3, ?B5, ?B6, ?B7, ?B8; repeat (split; [reflexivity|]); split; [intros _; eauto|unfold over; intuition discriminate].
Qed.

(** ** An event that is refused does not start the game *)
Lemma left_click_some s x y s' : left_click s x y = Ok (s', None) -> False.
Proof.
  unfold left_click. intros E. apply bind_ok in E as (w & _ & E). destruct (negb (w =? 10)); [discriminate|].
  apply bind_ok in E as (c & _ & E). destruct (c =? 0); [|destruct (c =? -1)];
    repeat (apply bind_ok in E as (? & _ & E)); discriminate.
Qed.
Lemma chording_click_some s x y s' : chording_click s x y = Ok (s', None) -> False.
Proof.
  unfold chording_click. intros E. apply bind_ok in E as (w & _ & E). destruct ((w =? 0) || (8 <=? w)); [discriminate|].
  apply bind_ok in E as (((cells & fl) & bv) & _ & E). destruct (_ && _); [|discriminate].
  repeat (apply bind_ok in E as (? & _ & E)); discriminate.
Qed.
Lemma right_click_none s x y s' : right_click s x y = Ok (s', None) -> m_state s' = m_state s.
Proof.
  unfold right_click. intros E. apply bind_ok in E as (w & _ & E). destruct (w <? 10); [discriminate|].
  apply bind_ok in E as (c & _ & E). destruct (negb (c =? -1)); (destruct (w =? 10); [|destruct (w =? 11)]);
    try (repeat (apply bind_ok in E as (? & _ & E)); discriminate); injection E as <-; reflexivity.
Qed.
Lemma chord_at_none s p s' : chord_at s p = Ok (s', None) -> False.
Proof. unfold chord_at, ret. destruct (at_corner s p); [discriminate|]. apply chording_click_some. Qed.
Lemma chord_at_right_none s p s' : chord_at_right s p = Ok (s', None) -> False.
Proof. unfold chord_at_right. intros E. apply bind_ok in E as (r & _ & E). eapply chord_at_none, E. Qed.
Lemma left_at_none s p s' : left_at s p = Ok (s', None) -> False.
Proof. unfold left_at, ret. destruct (at_corner s p); [discriminate|]. apply left_click_some. Qed.
Lemma step_playing_same s e p s' : step_playing s e p = Ok (s', None) -> m_state s' = m_state s.
Proof.
  intros E. destruct e; cbn [step_playing] in E; try (destruct (m_mouse s));
    try (unfold ret, fail in E; first [discriminate E|injection E as <-; reflexivity]);
    try (exfalso; first [eapply chord_at_none, E|eapply chord_at_right_none, E|eapply left_at_none, E|eapply chording_click_some, E]).
  all: try (destruct (in_board s p); [|discriminate]); try (apply bind_ok in E as (w & _ & E); apply right_click_none in E; exact E).
  all: destruct (negb (m_mid _)); [exfalso; eapply chording_click_some, E|discriminate].
Qed.
Ltac pf_case E := apply bind_ok in E as (w & _ & E); destruct (w =? 10); [|discriminate]; apply right_click_none in E; cbn in E; congruence.
Lemma refused_not_playing s e p s' : step s e p = Ok (s', None) -> m_state s' = Playing -> m_state s = Playing.
Proof.
  unfold step. intros E Hp. destruct (m_state s) eqn:Es; try reflexivity; try discriminate E; exfalso.
  - destruct e; cbn [step_ready] in E; try (destruct (m_mouse s)); unfold ret, fail in E; try discriminate E;
      try (injection E as <-; congruence).
    all: try (match type of E with context [in_board ?a ?b] => destruct (in_board a b) end; [|discriminate]);
         try (apply bind_ok in E as (w & _ & E); destruct (w =? 10); [|discriminate]); apply right_click_none in E; cbn in E; congruence.
  - destruct e; cbn [step_preflag] in E; try (apply step_playing_same in E; congruence); try (destruct (m_mouse s) eqn:Em);
      try (unfold ret, fail in E; first [discriminate E|injection E as <-; congruence]);
      try (apply step_playing_same in E; first [congruence|cbn in E; congruence]).
    + destruct (at_corner s p); [discriminate|]. apply bind_ok in E as (w & _ & E). destruct (w =? 10).
      * cbn [step_playing w_state m_mouse] in E. rewrite Em in E. eapply left_at_none, E.
      * cbn in E. discriminate E.
    + destruct (in_board _ p).
      * apply bind_ok in E as (w & _ & E). destruct (w =? 10).
        -- apply right_click_none in E. cbn in E. congruence.
        -- apply bind_ok in E as (n & _ & E). destruct (n =? 0)%nat.
           ++ apply bind_ok in E as (g & _ & E). discriminate E.
           ++ apply right_click_none in E. cbn in E. congruence.
      * cbn in E. discriminate E.
    + apply step_playing_same in E. destruct (in_board _ p && _); cbn in E; congruence.
    + pf_case E.
    + pf_case E. + pf_case E. + pf_case E. + pf_case E. + pf_case E. + pf_case E. + pf_case E.
Qed.

(** ** A live game never turns into a video *)
Definition shown (s : mb) : Prop := m_state s = Display.
Lemma check_win_shown s s' : check_win s = Ok s' -> shown s' -> shown s.
Proof.
  unfold check_win, is_win, shown. intros E. apply bind_ok in E as ([s2 w] & E & E2). injection E2 as <-.
  apply bind_ok in E as (r & _ & E). destruct r as [[[i j]|]|]; injection E as <- <-; cbn; congruence.
Qed.
Lemma left_click_shown s x y s' o : left_click s x y = Ok (s', o) -> shown s' -> shown s.
Proof.
  unfold left_click. intros E. apply bind_ok in E as (w & _ & E). destruct (negb (w =? 10)); [injection E as <- _; auto|].
  apply bind_ok in E as (c & _ & E). destruct (c =? 0); [|destruct (c =? -1)].
  - apply bind_ok in E as (r & _ & E). apply bind_ok in E as (gb & _ & E). apply bind_ok in E as (s1 & Ew & E). injection E as <- _.
    intros D. apply (check_win_shown Ew) in D. destruct (fst r); exact D.
  - apply bind_ok in E as (gb & _ & E). injection E as <- _. discriminate.
  - apply bind_ok in E as (gb & _ & E). apply bind_ok in E as (k & _ & E). apply bind_ok in E as (s1 & Ew & E). injection E as <- _.
    intros D. apply (check_win_shown Ew) in D. destruct k; exact D.
Qed.
Lemma losing_shown cells : forall s s', foldM (fun s '(i, j) => let* v := get (m_board s) i j in Ok (if v =? -1 then w_state s Loss else s)) cells s = Ok s' ->
  shown s' -> shown s.
Proof.
  induction cells as [|[i j] cells IH]; intros s s' E D; cbn [foldM] in E; [injection E as <-; exact D|].
  apply bind_ok in E as (s1 & E1 & E). apply bind_ok in E1 as (c & _ & E1). injection E1 as <-. apply (IH _ _ E) in D.
  destruct (c =? -1); [discriminate D|exact D].
Qed.
Lemma chording_click_shown s x y s' o : chording_click s x y = Ok (s', o) -> shown s' -> shown s.
Proof.
  unfold chording_click. intros E. apply bind_ok in E as (w & _ & E). destruct ((w =? 0) || (8 <=? w)); [injection E as <- _; auto|].
  apply bind_ok in E as (((cells & fl) & bv) & _ & E). destruct (_ && _); [|injection E as <- _; auto].
  apply bind_ok in E as (s1 & E1 & E). apply bind_ok in E as (n & _ & E). apply bind_ok in E as (gb & _ & E). apply bind_ok in E as (s2 & E2 & E). injection E as <- _.
  intros D. apply (check_win_shown E2) in D. apply (losing_shown E1) in D. exact D.
Qed.
Lemma right_click_shown s x y s' o : right_click s x y = Ok (s', o) -> shown s' -> shown s.
Proof.
  unfold right_click. intros E. apply bind_ok in E as (w & _ & E). destruct (w <? 10); [injection E as <- _; auto|].
  apply bind_ok in E as (c & _ & E). destruct (negb (c =? -1)); (destruct (w =? 10); [|destruct (w =? 11)]);
    repeat (apply bind_ok in E as (? & _ & E)); injection E as <- _; auto. destruct (existsb _ _); auto.
Qed.
Lemma chord_at_shown s p s' o : chord_at s p = Ok (s', o) -> shown s' -> shown s.
Proof. unfold chord_at, ret. destruct (at_corner s p); [intros E; injection E as <- _; auto|]. apply chording_click_shown. Qed.
Lemma chord_at_right_shown s p s' o : chord_at_right s p = Ok (s', o) -> shown s' -> shown s.
Proof. unfold chord_at_right. intros E. apply bind_ok in E as (r & _ & E). intros D. apply (chord_at_shown E) in D. exact D. Qed.
Lemma left_at_shown s p s' o : left_at s p = Ok (s', o) -> shown s' -> shown s.
Proof. unfold left_at, ret. destruct (at_corner s p); [intros E; injection E as <- _; auto|]. apply left_click_shown. Qed.
Lemma step_playing_shown s e p s' o : step_playing s e p = Ok (s', o) -> shown s' -> shown s.
Proof.
  intros E D. destruct e; cbn [step_playing] in E; try (destruct (m_mouse s));
    try (unfold ret, fail in E; injection E as <- _; exact D);
    try (first [apply (chord_at_shown E) in D|apply (chord_at_right_shown E) in D|apply (left_at_shown E) in D|apply (chording_click_shown E) in D]; exact D).
  all: try (destruct (in_board s p); [|injection E as <- _; exact D]); try (apply bind_ok in E as (w & _ & E); apply (right_click_shown E) in D; exact D).
  all: destruct (negb (m_mid _)); [apply (chording_click_shown E) in D; exact D|injection E as <- _; exact D].
Qed.
Lemma step_not_display s e p s' o : step s e p = Ok (s', o) -> live (m_state s) -> m_state s' = Display -> False.
Proof.
  unfold step. intros E Hl D. change (shown s') in D. destruct (m_state s) eqn:Es; try (destruct Hl as [Hl|[Hl|Hl]]; discriminate Hl).
  - assert (S0 : ~ shown s) by (unfold shown; congruence).
    destruct e; cbn [step_ready] in E; try (destruct (m_mouse s)); unfold ret, fail in E; 
      repeat match type of E with context [in_board ?a ?b] => destruct (in_board a b) end;
      try (injection E as <- _; first [discriminate D|exact (S0 D)]);
      try (apply bind_ok in E as (w & _ & E); destruct (w =? 10); [|discriminate]); apply (right_click_shown E) in D; discriminate D.
  - assert (S0 : ~ shown s) by (unfold shown; congruence).
    destruct e; cbn [step_preflag] in E; try (apply (step_playing_shown E) in D; exact (S0 D)); try (destruct (m_mouse s) eqn:Em);
      unfold ret, fail in E;
      try (injection E as <- _; first [discriminate D|exact (S0 D)]);
      try (apply (step_playing_shown E) in D; exact (S0 D)).
    all: try (apply bind_ok in E as (w & _ & E); destruct (w =? 10); [|discriminate]; apply (right_click_shown E) in D; exact (S0 D)).
    all: repeat match type of E with context [at_corner ?a ?b] => destruct (at_corner a b) | context [in_board ?a ?b] => destruct (in_board a b) end;
      cbn [andb] in E.
    all: try (apply (step_playing_shown E) in D; exact (S0 D)).
    all: try (injection E as <- _; repeat match type of D with context [(?a =? ?b)%nat] => destruct (a =? b)%nat end; first [discriminate D|exact (S0 D)]).
    all: try (apply (step_playing_shown E) in D; repeat match type of D with context [(?a =? ?b)%nat] => destruct (a =? b)%nat end; first [discriminate D|exact (S0 D)]).
    all: apply bind_ok in E as (w & _ & E); destruct (w =? 10);
      try (apply (step_playing_shown E) in D; first [discriminate D|exact (S0 D)]);
      try (apply (right_click_shown E) in D; first [discriminate D|exact (S0 D)]).
    apply bind_ok in E as (n & _ & E). destruct (n =? 0)%nat; [|apply (right_click_shown E) in D; exact (S0 D)].
    apply bind_ok in E as (gb & _ & E). injection E as <- _. discriminate D.
  - apply (step_playing_shown E) in D. unfold shown in D. congruence.
Qed.

(** ** The invariant of a session *)
Definition step_clocks (cs : list vcall) : list Z :=
  flat_map (fun c => match c with VStep now _ _ _ => [now] | _ => [] end) cs.
(** [now0]: the clock when the object was made; [ts]: the clocks of the calls of [step], in order *)
Record SI (now0 : Z) (ts : list Z) (g : game) : Prop := {
  si_vs : In (b_video_start (g_bv g)) (now0 :: ts);
  si_same : b_state (g_bv g) = Playing <-> m_state (b_mb (g_bv g)) = Playing;
  si_time : g_time g = f_zero;
  si_cur : b_cur (g_bv g) = 0%nat;
  si_disp : b_state (g_bv g) <> Display;
  si_start : 0 <= b_game_start (g_bv g) < 2 ^ 32;
  si_allow : b_allow_rtime (g_bv g) = false;
  si_over : over (b_state (g_bv g)) ->
    ~ live (m_state (b_mb (g_bv g))) /\ g_speeds g = gather (b_mb (g_bv g)) (rtime (g_bv g)) /\
    0 <= v_rtime_ms (b_meta (g_bv g)) < 2 ^ 32 /\
    (exists rs r, b_rec (g_bv g) = rs ++ [r] /\ rkeys r = keys (b_mb (g_bv g))) /\
    (exists n, cal_bbbv (v_board (b_meta (g_bv g))) = Ok n /\ v_bbbv (b_meta (g_bv g)) = Z.of_nat n);
  si_play : b_state (g_bv g) = Playing \/ m_state (b_mb (g_bv g)) = Playing ->
    exists t, In t ts /\ b_game_start (g_bv g) = time_ms_between t (b_video_start (g_bv g)) /\
              (StronglySorted Z.le (now0 :: ts) -> b_video_start (g_bv g) <= t)
}.

Lemma between_range a b : 0 <= time_ms_between a b < 2 ^ 32.
Proof.
  unfold time_ms_between. assert (0 <= (Z.max 0 (a - b) + 500) / 1000) by (apply Z.div_pos; lia). change (2 ^ 32) with 4294967296. lia.
Qed.
Lemma new_SI b pix now g : game_new b pix now = Ok g -> SI now [] g.
Proof.
  unfold game_new, new_before_game. intros E. apply bind_ok in E as (v & E & Eg). injection Eg as <-.
  apply bind_ok in E as (bbbv & _ & E). apply bind_ok in E as (w & _ & E). apply bind_ok in E as (m & Em & E). injection E as <-.
  assert (Hm : m_state m = Ready) by (unfold mb_new in Em; repeat (apply bind_ok in Em as (? & _ & Em)); injection Em as <-; reflexivity).
  split; cbn; auto; try discriminate; try lia; [rewrite Hm; split; discriminate|unfold over; intuition discriminate|rewrite Hm; intuition discriminate].
Qed.
Lemma sorted_prefix (l l' : list Z) x : StronglySorted Z.le (x :: l ++ l') -> StronglySorted Z.le (x :: l).
Proof.
  revert x. induction l as [|y l IH]; intros x H; [constructor; [constructor|constructor]|].
  apply StronglySorted_inv in H as [H1 H2]. constructor; [apply IH; exact H1|]. apply Forall_forall. intros z Hz.
  rewrite Forall_forall in H2. apply H2. change (y :: l ++ l') with ((y :: l) ++ l'). apply in_or_app. auto.
Qed.
Lemma sorted_last (l : list Z) y x z : StronglySorted Z.le (x :: l ++ [y]) -> In z (x :: l) -> z <= y.
Proof.
  revert x. induction l as [|a l IH]; intros x H Hz; apply StronglySorted_inv in H as [H1 H2].
  - destruct Hz as [->|[]]. now inversion H2.
  - destruct Hz as [->|Hz]; [|eapply IH; eauto]. rewrite Forall_forall in H2. apply H2. right. apply in_or_app. right. now left.
Qed.
Lemma SI_more now0 ts t g : SI now0 ts g -> SI now0 (ts ++ t) g.
Proof.
  intros []. split; auto.
  - destruct si_vs0 as [H|H]; [left; exact H|right; apply in_or_app; auto].
  - intros H. destruct (si_play0 H) as (x & Hx & L & S). exists x. split; [apply in_or_app; auto|]. split; [exact L|].
    intros Hs. apply S. eapply sorted_prefix. exact Hs.
Qed.

(** calls other than [step] and [reset] *)
Definition same_run (v v' : bv) : Prop :=
  b_state v' = b_state v /\ b_cur v' = b_cur v /\ clock v' = clock v /\ b_allow_rtime v' = b_allow_rtime v /\
  m_state (b_mb v') = m_state (b_mb v) /\ keys (b_mb v') = keys (b_mb v) /\ b_rec v' = b_rec v /\
  v_rtime_ms (b_meta v') = v_rtime_ms (b_meta v) /\
  (over (b_state v) -> v_board (b_meta v') = v_board (b_meta v) /\ v_bbbv (b_meta v') = v_bbbv (b_meta v)).
Lemma same_SI now0 ts g v' : SI now0 ts g -> same_run (g_bv g) v' -> SI now0 ts (Game v' (g_speeds g) (g_time g)).
Proof.
  intros [H0 Hsm H1 H2 H3 H4 H5 H6 H7] (A1 & A2 & A3 & A4 & A5 & A6 & A7 & A8 & A9). unfold clock in A3. injection A3 as A3 A3'.
  split; cbn [g_bv g_speeds g_time]; rewrite ?A1, ?A2, ?A3, ?A3', ?A4, ?A5; auto.
  intros Ho. destruct (H6 Ho) as (B1 & B2 & B3 & B4 & B5). destruct (A9 Ho) as (A10 & A11). unfold rtime. rewrite A6, A7, A8, A10, A11.
  split; [exact B1|]. split; [|auto]. rewrite B2. unfold gather, rtime. unfold keys in A6. injection A6 as -> -> -> -> _ _. reflexivity.
Qed.
Lemma same_call v c v' : b_allow_rtime v = false -> vcall1 v c = Ok v' ->
  match c with VStep _ _ _ _ | VReset _ _ _ => True | _ => same_run v v' end.
Proof.
  intros Ha E. destruct c as [now stamp e p|b|c|c| |row column pix| |]; cbn [vcall1] in E; auto.
  - apply bind_ok in E as ((v1 & o) & E & Ev). injection Ev as <-. unfold set_board in E. destruct b as [|r0 b]; [discriminate|].
    destruct (b_state v) eqn:Es; try (injection E as <- <-; repeat (split; [reflexivity|]); auto);
      (destruct (_ || _); injection E as <- <-; repeat (split; [reflexivity|]); [auto|cbn; rewrite Es; unfold over; intuition discriminate]).
  - injection E as <-. destruct c; cbn [bv_set]; unfold put;
      repeat match goal with |- context [if ?b then _ else _] => destruct b eqn:? end; try (rewrite Ha in *; discriminate);
      cbn [fst]; repeat (split; [reflexivity|]); auto.
  - apply bind_ok in E as ((v1 & o) & E & Ev). injection Ev as <-. unfold bv_set_checksum in E. apply bind_ok in E as ((s & o1) & _ & E). injection E as <- <-.
    repeat (split; [reflexivity|]); auto.
  - unfold bv_generate in E. apply bind_ok in E as (raw & _ & E). injection E as <-. repeat (split; [reflexivity|]); auto.
  - injection E as <-. unfold win_then_flag_all_mine. destruct (m_state (b_mb v)) eqn:Em; repeat (split; [reflexivity|]); auto.
  - unfold loss_then_open_all_mine in E. destruct (m_state (b_mb v)) eqn:Em; try (injection E as <-; repeat (split; [reflexivity|]); auto).
    apply bind_ok in E as (gb & _ & E). injection E as <-. do 4 (split; [reflexivity|]). split; [cbn; congruence|]. repeat (split; [reflexivity|]). auto.
Qed.
Lemma call_SI now0 ts g c g' : SI now0 ts g -> gcall1 g c = Ok g' -> SI now0 (ts ++ step_clocks [c]) g'.
Proof.
  intros HS E. pose proof HS as [H0 Hsm H1 H2 H3 H4 H5 H6 H7].
  destruct c as [now stamp e p|b|c|c| |row column pix| |]; cbn [gcall1 step_clocks flat_map app] in *;
    try (apply bind_ok in E as (v' & E & Eg); injection Eg as <-; apply SI_more; apply same_SI; [exact HS|]; apply (same_call H5) in E; exact E).
  - (* step *) apply bind_ok in E as ((v' & o) & E & Eg). injection Eg as <-.
    destruct (bv_step_cases E) as [(Hn & -> & ->)|(Hl & q & m & oo & Es & K)].
    { replace (match m_state (b_mb (g_bv g)) with Loss | Win | Display => g_speeds g | _ => _ end) with (g_speeds g)
        by (destruct (m_state (b_mb (g_bv g))); try reflexivity; exfalso; apply Hn; unfold live; auto).
      destruct g; cbn in *. now apply SI_more. }
    destruct oo as [a|].
    + destruct K as (-> & Hm & Hst & Hal & Hcu & Hck & Hr & Hov). unfold clock in Hck.
      split; cbn [g_bv g_speeds g_time]; [|rewrite Hst, Hm; reflexivity|exact H1|congruence| | |congruence| |].
      * assert (Y : b_video_start v' = fst (new_clock (g_bv g) (m_state (b_mb (g_bv g))) (m_state m) now)) by (rewrite <- Hck; reflexivity).
        rewrite Y. assert (In now (now0 :: ts ++ [now])) by (right; apply in_or_app; right; left; reflexivity).
        assert (In (b_video_start (g_bv g)) (now0 :: ts ++ [now])) by (destruct H0 as [H0|H0]; [left; exact H0|right; apply in_or_app; auto]).
        unfold new_clock, clock. destruct (m_state m), (m_state (b_mb (g_bv g))); cbn [fst]; auto.
      * rewrite Hst. intros D. clear -Es Hl D. 
        apply step_not_display in Es; auto.
      * assert (X : b_game_start v' = snd (new_clock (g_bv g) (m_state (b_mb (g_bv g))) (m_state m) now)) by (rewrite <- Hck; reflexivity).
        rewrite X. unfold new_clock, clock. pose proof (between_range now now). pose proof (between_range now (b_video_start (g_bv g))).
        destruct (m_state m), (m_state (b_mb (g_bv g))); cbn [snd]; auto.
      * rewrite Hst. intros Ho. destruct (Hov Ho) as (L1 & L2 & L3). rewrite Hm.
        split; [destruct Ho as [->| ->]; unfold live; intuition discriminate|].
        split. { destruct Hl as [-> | [-> | ->]]; destruct Ho as [->| ->]; reflexivity. }
        split. { rewrite L2. pose proof (between_range now (b_video_start (g_bv g))). lia. }
        split; [|exact L3]. destruct Hr as (r & Hr & Hk); [destruct Ho as [->| ->]; discriminate|]. eauto.
      * rewrite Hst, Hm. intros Hp. assert (Hp' : m_state m = Playing) by tauto.
        assert (X : b_game_start v' = snd (new_clock (g_bv g) (m_state (b_mb (g_bv g))) (m_state m) now)) by (rewrite <- Hck; reflexivity).
        assert (Y : b_video_start v' = fst (new_clock (g_bv g) (m_state (b_mb (g_bv g))) (m_state m) now)) by (rewrite <- Hck; reflexivity).
        rewrite X, Y. unfold new_clock, clock. rewrite Hp'.
        destruct (m_state (b_mb (g_bv g))) eqn:Eo; cbn [fst snd];
          try (exists now; split; [apply in_or_app; right; left; reflexivity|]; split; [reflexivity|]; intros Hs; first [apply Z.le_refl|
               eapply sorted_last; [exact Hs|exact H0]]).
        destruct (H7 (or_intror eq_refl)) as (t & Ht & L & S). exists t. split; [apply in_or_app; auto|]. split; [exact L|].
        intros Hs. apply S. eapply sorted_prefix. exact Hs.
    + destruct K as (-> & ->).
      replace (match m_state (b_mb (g_bv g)) with Loss | Win | Display => g_speeds g | _ => g_speeds g end) with (g_speeds g)
        by (destruct (m_state (b_mb (g_bv g))); reflexivity).
      apply SI_more. split; cbn [g_bv g_speeds g_time b_cur b_state b_game_start b_allow_rtime b_mb bw_mb b_meta b_rec b_video_start]; auto.
      * rewrite Hsm. split; intros Hp; [|eapply refused_not_playing; eauto]. unfold step in Es. rewrite Hp in Es. apply step_playing_same in Es. congruence.
      * intros Ho. exfalso. destruct (H6 Ho) as (Hn & _). auto.
      * intros [Hp|Hp]; apply H7; [auto|]. right. eapply refused_not_playing; eauto.
  - (* reset *) apply bind_ok in E as (v' & E & Eg). injection Eg as <-. cbn [vcall1] in E. unfold bv_reset in E. apply bind_ok in E as (m & Em & E). injection E as <-.
    assert (Hm : m_state m = Ready) by (unfold mb_new in Em; repeat (apply bind_ok in Em as (? & _ & Em)); injection Em as <-; reflexivity).
    apply SI_more. split; cbn; auto; try discriminate; [rewrite Hm; split; discriminate|unfold over; intuition discriminate|rewrite Hm; intuition discriminate].
Qed.

Lemma session_SI cs : forall now0 ts g g', SI now0 ts g -> gexec g cs = Ok g' -> SI now0 (ts ++ step_clocks cs) g'.
Proof.
  induction cs as [|c cs IH]; intros now0 ts g g' H E; unfold gexec in E; cbn [foldM] in E.
  - injection E as <-. cbn. now rewrite app_nil_r.
  - apply bind_ok in E as (g1 & E1 & E). pose proof (call_SI H E1) as H1. apply (IH _ _ _ _ H1) in E.
    change (c :: cs) with ([c] ++ cs). unfold step_clocks in *. rewrite flat_map_app, app_assoc. exact E.
Qed.
Lemma game_SI b pix now g0 cs g : game_new b pix now = Ok g0 -> gexec g0 cs = Ok g -> SI now (step_clocks cs) g.
Proof. intros E0 E. exact (session_SI (new_SI E0) E). Qed.

(** While the game is being played the clock is not touched. *)
Lemma playing_clock now0 ts g c g' : SI now0 ts g -> gcall1 g c = Ok g' -> b_state (g_bv g) = Playing -> b_state (g_bv g') = Playing ->
  clock (g_bv g') = clock (g_bv g).
Proof.
  intros [H0 Hsm H1 H2 H3 H4 H5 H6 H7] E Hp Hp'.
  destruct c as [now stamp e p|b|c|c| |row column pix| |]; cbn [gcall1] in E;
    try (apply bind_ok in E as (v' & E & Eg); injection Eg as <-; cbn [g_bv]; apply (same_call H5) in E; apply E).
  - apply bind_ok in E as ((v' & o) & E & Eg). injection Eg as <-. cbn [g_bv] in *.
    destruct (bv_step_cases E) as [(Hn & -> & _)|(Hl & q & m & oo & Es & K)]; [reflexivity|].
    destruct oo as [a|]; [|destruct K as (-> & _); reflexivity].
    destruct K as (_ & _ & Hst & _ & _ & -> & _). rewrite <- Hst, Hp', (proj1 Hsm Hp). reflexivity.
  - apply bind_ok in E as (v' & E & Eg). injection Eg as <-. cbn [vcall1] in E. unfold bv_reset in E. apply bind_ok in E as (m & _ & E). injection E as <-. discriminate Hp'.
Qed.
Lemma playing_clocks cs : forall now0 ts g g', SI now0 ts g ->
  (forall cs1 cs2 g1, cs = cs1 ++ cs2 -> gexec g cs1 = Ok g1 -> b_state (g_bv g1) = Playing) -> gexec g cs = Ok g' ->
  clock (g_bv g') = clock (g_bv g).
Proof.
  induction cs as [|c cs IH]; intros now0 ts g g' HS HP E; unfold gexec in E; cbn [foldM] in E; [injection E as <-; reflexivity|].
  apply bind_ok in E as (g1 & E1 & E).
  assert (P0 : b_state (g_bv g) = Playing) by (apply (HP [] (c :: cs)); reflexivity).
  assert (P1 : b_state (g_bv g1) = Playing) by (apply (HP [c] cs); [reflexivity|]; unfold gexec; cbn [foldM]; rewrite E1; reflexivity).
  rewrite <- (playing_clock HS E1 P0 P1). eapply IH; [exact (call_SI HS E1)| |exact E].
  intros cs1 cs2 g2 -> E2. apply (HP (c :: cs1) cs2); [reflexivity|]. unfold gexec in *. cbn [foldM]. rewrite E1. exact E2.
Qed.
