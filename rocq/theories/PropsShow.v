(** * C61: showing the mines at the end of a game. C62: what a replay shows at each event.
    C63: the times stored with the events. Also C41: the result time is written once. *)
From Verif Require Import Base Spec BaseFacts LayMine LayMineProofs Metrics Refresh MineBoard OpProofs
  MineBoardProofs MineBoardFrame BoardCache Evf EvfSpec BaseVideo GameStats ReplayProofs PropsEvf PropsSetters PropsGame PropsUtils PropsReplay.
Open Scope Z_scope.

(** ** C41 (continued): the result time can be set once, by the parser, and never again. *)
Theorem C41_result_time_once : forall v c,
  b_allow_rtime (fst (bv_set v c)) = (b_allow_rtime v && match c with SetRtime _ => false | _ => true end).
Proof.
  intros v c. destruct c; cbn [bv_set]; unfold put;
    try (destruct (is_over (b_state v)); cbn; now rewrite andb_true_r).
  - destruct (_ && _); cbn; now rewrite andb_true_r.
  - destruct (b_allow_rtime v) eqn:E; cbn; auto. 
  - destruct (_ && _); cbn; now rewrite andb_true_r.
Qed.

(** ** C61 *)
(** The calls that play and sign a game; the board is given at the start. *)
Definition plays (c : vcall) : bool :=
  match c with VStep _ _ _ _ | VSet _ | VChecksum _ | VGenerate => true | _ => false end.

Lemma bv_set_mb v c : b_mb (fst (bv_set v c)) = b_mb v /\ v_height (b_meta (fst (bv_set v c))) = v_height (b_meta v) /\
  v_width (b_meta (fst (bv_set v c))) = v_width (b_meta v).
Proof.
  destruct c; cbn [bv_set]; unfold put; try (destruct (is_over (b_state v)); now cbn); try (destruct (_ && _); now cbn).
  destruct (b_allow_rtime v); now cbn.
Qed.
Lemma end_game_mb v w t st v' : end_game v w t st = Ok v' -> b_mb v' = b_mb v /\
  v_height (b_meta v') = v_height (b_meta v) /\ v_width (b_meta v') = v_width (b_meta v).
Proof.
  unfold end_game, cal_static_params. intros E. apply bind_ok in E as (t' & _ & E). apply bind_ok in E as (n & _ & E).
  apply bind_ok in E as (x1 & _ & E). apply bind_ok in E as (x2 & _ & E). apply bind_ok in E as (x3 & _ & E).
  injection E as <-. now cbn.
Qed.
Lemma bv_step_mb v now st e p v' o : bv_step v now st e p = Ok (v', o) ->
  (b_mb v' = b_mb v \/ exists q o', step (b_mb v) e q = Ok (b_mb v', o')) /\
  v_height (b_meta v') = v_height (b_meta v) /\ v_width (b_meta v') = v_width (b_meta v).
Proof.
  unfold bv_step. intros E.
  assert (Hover : Ok (v, Some 0%nat) = Ok (v', o) -> (b_mb v' = b_mb v \/ exists q o', step (b_mb v) e q = Ok (b_mb v', o')) /\
     v_height (b_meta v') = v_height (b_meta v) /\ v_width (b_meta v') = v_width (b_meta v)) by (intros E'; injection E' as <- <-; auto).
  set (goal := _ /\ _ /\ _) in *.
  assert (H : (let pix := Z.to_nat (v_pix (b_meta v)) in
      let* x := udiv (fst p) pix in let* y := udiv (snd p) pix in
      let* (m, o) := step (b_mb v) e (x, y) in Ok (m, o, (x,y))) <> Panic \/ True) by auto. clear H.
  destruct (m_state (b_mb v)) eqn:Est; try (now apply Hover); clear Hover; cbv zeta in E;
    apply bind_ok in E as (x & _ & E); apply bind_ok in E as (y & _ & E); apply bind_ok in E as ([m o'] & Es & E);
    subst goal.
  all: assert (Hm : b_mb v' = m /\ v_height (b_meta v') = v_height (b_meta v) /\ v_width (b_meta v') = v_width (b_meta v));
    [|destruct Hm as (Hm & H1 & H2); split; [right; exists (x, y), o'; now rewrite Hm|auto]].
  all: destruct o' as [a|]; [|injection E as <- <-; now cbn].
  all: destruct (m_state m) eqn:Em; try (injection E as <- <-; now cbn).
  all: apply bind_ok in E as ([v1 t1] & E1 & E); apply bind_ok in E as ([v2 hops] & E2 & E);
       apply bind_ok in E as ([[v3 prior] next] & E3 & E); injection E as <- <-; cbn [b_mb bw_rec b_meta].
  all: assert (Q3 : b_mb v3 = b_mb v2 /\ b_meta v3 = b_meta v2) by
        (destruct (1 <=? a)%nat; [apply bind_ok in E3 as (n1 & _ & E3); apply bind_ok in E3 as (n2 & _ & E3); injection E3 as <- <- <-|
                                  apply bind_ok in E3 as (n1 & _ & E3); injection E3 as <- <- <-]; now cbn).
  all: assert (Q2 : b_mb v2 = b_mb v1 /\ b_meta v2 = b_meta v1) by
        (try (apply bind_ok in E2 as (r & _ & E2); injection E2 as <- <-; now cbn);
         destruct (_ =? 0)%nat; injection E2 as <- <-; now cbn).
  all: destruct Q3 as [-> ->], Q2 as [-> ->].
  all: try (injection E1 as <- <-; now cbn).
  all: apply bind_ok in E1 as (w & E1 & E1'); injection E1' as <- <-; apply end_game_mb in E1; cbn in E1; exact E1.
Qed.
Lemma session_played : forall cs v v' h w, forallb plays cs = true -> vexec v cs = Ok v' ->
  v_height (b_meta v) = h -> v_width (b_meta v) = w ->
  v_height (b_meta v') = h /\ v_width (b_meta v') = w /\
  exists evs, exec (b_mb v) (map (fun '(e, q) => Step e q) evs) = Ok (b_mb v').
Proof.
  induction cs as [|c cs IH]; intros v v' h w Hp E Hh Hw.
  - injection E as <-. split; auto. split; auto. now exists [].
  - cbn [forallb] in Hp. apply andb_true_iff in Hp as [Hc Hp]. cbn [vexec foldM] in E. unfold vexec in *. cbn [foldM] in E.
    apply bind_ok in E as (v1 & E1 & E).
    assert (Q : (b_mb v1 = b_mb v \/ exists e q o, step (b_mb v) e q = Ok (b_mb v1, o)) /\
              v_height (b_meta v1) = h /\ v_width (b_meta v1) = w).
    { destruct c; try discriminate Hc; cbn [vcall1] in E1.
      - apply bind_ok in E1 as ([v2 o] & E1 & E1'). injection E1' as <-. cbn [fst].
        destruct (bv_step_mb E1) as ([H|(q & o' & H)] & H1 & H2); rewrite H1, H2; eauto 8.
      - injection E1 as <-. destruct (bv_set_mb v c) as (H & H1 & H2). rewrite H1, H2. auto.
      - apply bind_ok in E1 as ([v2 o] & E1 & E1'). injection E1' as <-. cbn [fst]. unfold bv_set_checksum in E1.
        apply bind_ok in E1 as ([s o'] & E1 & E1'). injection E1' as <- <-. cbn. auto.
      - unfold bv_generate in E1. apply bind_ok in E1 as (raw & _ & E1). injection E1 as <-. cbn. auto. }
    destruct Q as (Q & H1 & H2). destruct (IH v1 v' h w Hp E H1 H2) as (H3 & H4 & evs & H5). split; auto. split; auto.
    destruct Q as [Q|(e & q & o & Q)].
    + exists evs. now rewrite <- Q.
    + exists ((e, q) :: evs). unfold exec in *. cbn [map foldM call1]. rewrite Q. exact H5.
Qed.

(** [recorded row column b v]: the object [v] was created for the board [b] and then only used to
    play, sign and save. *)
Definition recorded (row column : nat) (b : board) (v : bv) : Prop :=
  legal_board row column b /\ (0 < row)%nat /\
  exists pix now v0 cs, new_before_game b pix now = Ok v0 /\ forallb plays cs = true /\ vexec v0 cs = Ok v.
(** [v'] is [v] with the visible board [g]. *)
Definition repainted (v v' : bv) (g : board) : Prop := v' = bw_mb v (w_gb (b_mb v) g).

Lemma recorded_played row column b v : recorded row column b v ->
  v_height (b_meta v) = row /\ v_width (b_meta v) = column /\ m_board (b_mb v) = b /\
  exists cs, played row column b cs (b_mb v).
Proof.
  intros (Hl & Hr & pix & now & v0 & cs & E0 & Hp & E). unfold new_before_game in E0.
  apply bind_ok in E0 as (n & _ & E0). apply bind_ok in E0 as (w & Ew & E0). apply bind_ok in E0 as (m & Em & E0).
  injection E0 as <-. unfold get_column, get_row in *. rewrite (ncolsR_ok (proj1 Hl) Hr) in Ew. injection Ew as <-.
  destruct (session_played Hp E (h := row) (w := column)) as (H1 & H2 & evs & H3).
  - cbn. apply (nrows_ok (proj1 Hl)).
  - reflexivity.
  - cbn [b_mb] in H3.
    assert (Hpl : played row column b (map (fun '(e, q) => Step e q) evs) (b_mb v)).
    { split; auto. split; auto. exists m. auto. }
    split; auto. split; auto. split; eauto. destruct (C11_visible_board_never_lies Hpl) as (_ & _ & _ & Hb & _).
    rewrite Hb. replace (existsb _ _) with false; auto. symmetry. clear. induction evs as [|[e q] evs IH]; auto.
Qed.

Lemma map_map_cell (f : Z -> Z) row column g q : rect row column g -> inb row column q ->
  cell (map (map f) g) q = f (cell g q).
Proof.
  intros [Hn Hrows] [H1 H2]. unfold cell, gcell.
  rewrite (nth_indep _ [] (map f [])) by (rewrite map_length; lia). rewrite map_nth.
  rewrite (nth_indep _ 0 (f 0)); [apply map_nth|]. rewrite map_length.
  rewrite Forall_forall in Hrows. rewrite (Hrows (nth (fst q) g [])); auto. apply nth_In. lia.
Qed.

Theorem C61_win_flags_all_mines : forall row column b v, recorded row column b v -> m_state (b_mb v) = Win ->
  exists g, repainted v (win_then_flag_all_mine v) g /\
    forall q, inb row column q -> cell g q = if is_mine b q then 11 else cell b q.
Proof.
  intros row column b v H Hw. destruct (recorded_played H) as (Hh & Hwd & Hb & cs & Hp).
  unfold win_then_flag_all_mine, repainted. rewrite Hw. eexists. split; [reflexivity|]. intros q Hq.
  destruct (C11_visible_board_never_lies Hp) as (_ & _ & Hrect & _ & Hc).
  rewrite (map_map_cell _ Hrect Hq). destruct (Hc q Hq) as (H1 & H2 & H3 & H4 & _). rewrite Hb in *. unfold is_mine in *.
  destruct (Z.eqb_spec (cell b q) (-1)) as [E|E].
  - destruct (Z_lt_ge_dec (cell (m_gb (b_mb v)) q) 10) as [Hlt|Hge]; [destruct (H1 Hlt); contradiction|].
    specialize (H4 ltac:(lia)). cbn in H4.
    destruct (Z.eqb_spec (cell (m_gb (b_mb v)) q) 10); auto.
    destruct H4 as [?|[?|[?|[?|[]]]]]; try congruence.
    + symmetry in H0. apply H3 in H0. contradiction.
    + symmetry in H0. destruct (C16_hit_mine_loses Hp Hq H0). congruence.
  - pose proof (C12_win_iff_all_safe_open Hp) as H12. rewrite Hb in H12.
    assert (Hex : exists q, inb row column q /\ cell b q <> -1) by eauto.
    rewrite (proj1 (H12 Hex) Hw q Hq E). destruct (Z.eqb_spec (cell b q) 10) as [E10|]; auto. exfalso.
    destruct H as (Hl & Hr & _). pose proof (safe_range Hl Hr Hq E). lia.
Qed.
Lemma open_fold row column b (Hb : rect row column b) : forall l g, rect row column g -> Forall (inb row column) l ->
  exists g', foldM (fun g '(i, j) =>
                   let* b := get b i j in
                   if b =? -1 then
                     let* w := get g i j in
                     if w =? 10 then set g i j 16 else Ok g
                   else Ok g) l g = Ok g' /\ rect row column g' /\
    forall q, inb row column q -> cell g' q = if existsb (posb q) l && is_mine b q && (cell g q =? 10) then 16 else cell g q.
Proof.
  induction l as [|[i j] l IH]; intros g Hg Hl; [exists g; auto|]. apply Forall_cons_iff in Hl as [Hij Hl].
  cbn [foldM]. rewrite (get_ok Hb Hij). cbn [bind].
  assert (H : exists g1, (if cell b (i, j) =? -1 then let* w := get g i j in if w =? 10 then set g i j 16 else Ok g else Ok g) = Ok g1 /\
     rect row column g1 /\ forall q, inb row column q -> cell g1 q = if posb q (i, j) && is_mine b q && (cell g q =? 10) then 16 else cell g q).
  { unfold is_mine. destruct (cell b (i, j) =? -1) eqn:Em.
    - rewrite (get_ok Hg Hij). cbn [bind]. destruct (cell g (i, j) =? 10) eqn:E10.
      + rewrite (set_ok 16 Hg Hij). eexists. split; [reflexivity|]. split; [now apply rect_upd|]. intros q Hq.
        rewrite (cell_upd q 16 Hg Hij). destruct (posb_spec q (i, j)) as [->|Hne]; cbn [andb].
        * rewrite Em, E10. destruct (posb_spec (i, j) (i, j)); [reflexivity|congruence].
        * destruct (posb_spec (i, j) q); [congruence|reflexivity].
      + exists g. split; auto. split; auto. intros q Hq. destruct (posb_spec q (i, j)) as [->|Hne]; cbn [andb]; auto. now rewrite E10, andb_false_r.
    - exists g. split; auto. split; auto. intros q Hq. destruct (posb_spec q (i, j)) as [->|Hne]; cbn [andb]; auto. now rewrite Em. }
  destruct H as (g1 & E1 & Hr1 & Hc1). change (gcell 0) with cell. rewrite E1. cbn [bind].
  destruct (IH g1 Hr1 Hl) as (g' & E' & Hr' & Hc'). exists g'. split; auto. split; auto. intros q Hq.
  rewrite (Hc' q Hq), (Hc1 q Hq). cbn [existsb].
  destruct (posb q (i, j)), (existsb (posb q) l), (is_mine b q), (cell g q =? 10) eqn:E10; cbn; rewrite ?E10; auto.
Qed.
Theorem C61_loss_opens_all_mines : forall row column b v, recorded row column b v -> m_state (b_mb v) = Loss ->
  exists v' g, loss_then_open_all_mine v = Ok v' /\ repainted v v' g /\
    (forall q, inb row column q ->
       (cell (m_gb (b_mb v)) q = 10 -> is_mine b q = true -> cell g q = 16) /\
       (cell (m_gb (b_mb v)) q <> 10 \/ is_mine b q = false -> cell g q = cell (m_gb (b_mb v)) q) /\
       (is_mine b q = true -> In (cell g q) [11; 15; 16])).
Proof.
  intros row column b v H Hw. destruct (recorded_played H) as (Hh & Hwd & Hb & cs & Hp).
  destruct (C11_visible_board_never_lies Hp) as (_ & _ & Hrect & _ & Hc). destruct H as (Hl & Hr & _).
  unfold loss_then_open_all_mine, repainted. rewrite Hw, Hh, Hwd, Hb.
  destruct (open_fold (proj1 Hl) (l := grid row column) Hrect) as (g & E & _ & Hg).
  { apply Forall_forall. intros p. apply in_grid. }
  rewrite E. cbn [bind]. do 2 eexists. split; [reflexivity|]. split; [reflexivity|]. intros q Hq.
  assert (Hin : existsb (posb q) (grid row column) = true).
  { apply existsb_exists. exists q. split; [now apply in_grid|]. destruct (posb_spec q q); congruence. }
  rewrite (Hg q Hq), Hin. cbn [andb]. destruct (Hc q Hq) as (H1 & H2 & H3 & H4 & _). rewrite Hb in *.
  split; [intros -> ->; reflexivity|]. split.
  - intros [Hn|Hn]; [|now rewrite Hn]. destruct (Z.eqb_spec (cell (m_gb (b_mb v)) q) 10); [contradiction|]. now rewrite andb_false_r.
  - intros Hm. rewrite Hm. cbn [andb]. destruct (Z.eqb_spec (cell (m_gb (b_mb v)) q) 10); [cbn; auto|].
    unfold is_mine in Hm. apply Z.eqb_eq in Hm.
    destruct (Z_lt_ge_dec (cell (m_gb (b_mb v)) q) 10) as [Hlt|Hge]; [destruct (H1 Hlt); contradiction|].
    specialize (H4 ltac:(lia)). cbn in *. destruct H4 as [?|[?|[?|[?|[]]]]]; auto; try congruence.
    symmetry in H. apply H3 in H. contradiction.
Qed.
(** Called at any other time they do nothing. *)
Theorem C61_only_at_the_end : forall v,
  (m_state (b_mb v) <> Win -> win_then_flag_all_mine v = v) /\
  (m_state (b_mb v) <> Loss -> loss_then_open_all_mine v = Ok v).
Proof. intros v. unfold win_then_flag_all_mine, loss_then_open_all_mine. destruct (m_state (b_mb v)); split; congruence. Qed.

Definition two_mines : board := [[-1; 1; 0; 0]; [1; 1; 0; 0]; [0; 0; 1; 1]; [0; 0; 1; -1]].
Definition lost_game : list vcall :=
  [VStep 1000 [] e_lc (0, 16)%nat; VStep 2000 [] e_lr (0, 16)%nat;
   VStep 3000 [] e_lc (0, 0)%nat; VStep 4000 [] e_lr (0, 0)%nat].
Definition won_game : list vcall :=
  [VStep 1000 [] e_lc (0, 63)%nat; VStep 2000 [] e_lr (0, 63)%nat].
Definition session_on (b : board) (cs : list vcall) : R bv :=
  let* v := new_before_game b 16 0 in vexec v cs.
Lemma two_legal : legal_board 4 4 two_mines. Proof. now apply legal_boardb_ok. Qed.
Lemma session_recorded b row column cs v : legal_board row column b -> (0 < row)%nat -> forallb plays cs = true ->
  session_on b cs = Ok v -> recorded row column b v.
Proof. intros Hl Hr Hp E. apply bind_ok in E as (v0 & E0 & E). split; auto. split; auto. exists 16, 0, v0, cs. auto. Qed.
Example C61_case : exists v v',
  recorded 4 4 two_mines v /\ m_state (b_mb v) = Loss /\ loss_then_open_all_mine v = Ok v' /\
  m_gb (b_mb v') = [[15; 1; 10; 10]; [10; 10; 10; 10]; [10; 10; 10; 10]; [10; 10; 10; 16]].
Proof.
  destruct (session_on two_mines lost_game) as [v| | |] eqn:E; try (vm_compute in E; discriminate).
  exists v. eexists. split; [apply (session_recorded two_legal (cs := lost_game)); [lia|reflexivity|exact E]|].
  vm_compute in E. injection E as <-. split; [reflexivity|]. split; vm_compute; reflexivity.
Qed.
Example C61_case_win : exists v,
  recorded 4 4 two_mines v /\ m_state (b_mb v) = Win /\
  m_gb (b_mb (win_then_flag_all_mine v)) = [[11; 1; 0; 0]; [1; 1; 0; 0]; [0; 0; 1; 1]; [0; 0; 1; 11]].
Proof.
  destruct (session_on two_mines won_game) as [v| | |] eqn:E; try (vm_compute in E; discriminate).
  exists v. split; [apply (session_recorded two_legal (cs := won_game)); [lia|reflexivity|exact E]|].
  vm_compute in E. injection E as <-. split; vm_compute; reflexivity.
Qed.

(** ** C62. What a replay shows. *)
(** The cell an event of the file points at, and the game after the first [n] events of the file,
    played on the board of the file. *)
Definition cell_at (f : video) (e : vev) : pos :=
  (Z.to_nat (ve_y e) / Z.to_nat (v_pix f), Z.to_nat (ve_x e) / Z.to_nat (v_pix f))%nat.
Definition game_after (f : video) (n : nat) : R mb :=
  let* s := mb_new (v_board f) in
  exec s (map (fun e => Step (ve_mouse e) (cell_at f e)) (firstn n (v_events f))).
(** The event number [j] took effect: its step answered 1 (flag), 2 (opening) or 3 (chord). *)
Definition effective (f : video) (j : nat) : Prop :=
  exists e s s' u, nth_error (v_events f) j = Some e /\ game_after f j = Ok s /\
    step s (ve_mouse e) (cell_at f e) = Ok (s', Some u) /\ (1 <= u)%nat.
(** Among the first [n] events the last one that took effect is number [k - 1]; [k = 0]: none did. *)
Definition last_effect (f : video) (n k : nat) : Prop :=
  (k <= n)%nat /\ (forall j, k = S j -> effective f j) /\ forall j, (k <= j < n)%nat -> ~ effective f j.
Definition well_formed (f : video) : Prop :=
  legal_board (v_height f) (v_width f) (v_board f) /\ (1 <= v_height f)%nat.

Lemma game_after_next f n e s : nth_error (v_events f) n = Some e -> game_after f n = Ok s ->
  game_after f (S n) = (let* r := step s (ve_mouse e) (cell_at f e) in Ok (fst r)).
Proof.
  intros He. unfold game_after, exec. destruct (mb_new (v_board f)) as [s0| | |]; cbn [bind]; try discriminate.
  assert (E : firstn (S n) (v_events f) = firstn n (v_events f) ++ [e]).
  { clear - He. revert n He. induction (v_events f) as [|x l IH]; intros [|n] He; try discriminate; cbn in *.
    - now injection He as ->.
    - f_equal. now apply IH. }
  rewrite E, map_app, foldM_app. intros ->. cbn [bind map foldM call1].
  destruct (step s (ve_mouse e) (cell_at f e)) as [[? ?]| | |]; reflexivity.
Qed.
Lemma step_mv s p : step s e_mv p = Ok (s, Some 0%nat).
Proof. unfold step, step_ready, step_preflag, step_playing, ret. destruct (m_state s); reflexivity. Qed.

Definition rec_shows (f : video) (st : list gboard) (i : nat) (r : rec) : Prop :=
  exists s k sk g, game_after f (S i) = Ok s /\ r_mstate r = m_mouse s /\ r_left r = m_left s /\ r_right r = m_right s /\
    r_double r = m_double s /\ r_ce r = m_ce s /\ r_flag r = m_flag s /\ r_solved r = m_solved s /\
    last_effect f (S i) k /\ game_after f k = Ok sk /\ nth_error st (r_next r) = Some g /\ gb_board g = m_gb sk /\
    (m_state s = Playing \/ m_state s = Win -> m_gb sk = m_gb s).

Lemma chord_zero s x y s' : Inv s -> live (m_state s) -> chording_click s x y = Ok (s', Some 0%nat) -> m_gb s' = m_gb s.
Proof.
  intros HI Hl E. eapply chord_any in E; eauto. destruct E as (_ & _ & Hr & _). inversion Hr; reflexivity.
Qed.
Lemma chord_at_zero s p s' : Inv s -> live (m_state s) -> chord_at s p = Ok (s', Some 0%nat) -> m_gb s' = m_gb s.
Proof.
  intros HI Hl. unfold chord_at, ret. destruct (at_corner s p); [intros E; now injection E as <-|now apply chord_zero].
Qed.
Lemma chord_at_right_zero s p s' : Inv s -> live (m_state s) -> chord_at_right s p = Ok (s', Some 0%nat) -> m_gb s' = m_gb s.
Proof.
  intros HI Hl E. unfold chord_at_right in E. apply bind_ok in E as (r & _ & E).
  change (m_gb s) with (m_gb (w_right s r)). eapply chord_at_zero; [| |exact E]; [exact HI|exact Hl].
Qed.
Lemma left_at_zero s p s' : Inv s -> m_state s = Playing -> left_at s p = Ok (s', Some 0%nat) -> m_gb s' = m_gb s \/ m_state s' = Loss.
Proof.
  intros HI Hl. unfold left_at, ret. destruct (at_corner s p); [intros E; injection E as <-; auto|]. intros E.
  eapply left_any in E; eauto. destruct E as (_ & _ & Hr & _). inversion Hr; subst; cbn; auto.
Qed.
Lemma right_zero s p s' : Inv s -> m_state s = Playing -> right_click s (fst p) (snd p) = Ok (s', Some 0%nat) -> m_gb s' = m_gb s.
Proof.
  intros HI Hl E. eapply right_any in E; auto; try (rewrite Hl; unfold live; auto; discriminate).
  destruct E as (_ & _ & Hr & _). inversion Hr; reflexivity.
Qed.
Lemma playing_zero s e p s' : Inv s -> m_state s = Playing -> step_playing s e p = Ok (s', Some 0%nat) ->
  m_gb s' = m_gb s \/ m_state s' = Loss.
Proof.
  intros HI Hst E. assert (Hlv : live (m_state s)) by (rewrite Hst; unfold live; auto).
  assert (HR : forall w, right_click (w_mouse s w) (fst p) (snd p) = Ok (s', Some 0%nat) -> m_gb s' = m_gb s \/ m_state s' = Loss).
  { intros w E'. left. change (m_gb s) with (m_gb (w_mouse s w)). eapply right_zero; [| |exact E']; [exact HI|exact Hst]. }
  destruct e; cbn [step_playing] in E; try discriminate E; try (unfold ret in E; injection E as <-; left; reflexivity);
    try (match type of E with match m_mouse s with _ => _ end = _ => idtac end; destruct (m_mouse s); try discriminate E;
         try (unfold ret in E; injection E as <-; left; reflexivity);
         try (left; refine (chord_at_zero _ _ E); [exact HI|exact Hlv]);
         try (left; refine (chord_at_right_zero _ _ E); [exact HI|exact Hlv]);
         try (refine (left_at_zero _ _ E); [exact HI|exact Hst])).
  - destruct (in_board s p); [|unfold ret in E; injection E as <-; left; reflexivity]. apply bind_ok in E as (w & _ & E). eauto.
  - left. refine (chord_zero _ _ E); [exact HI|exact Hlv].
  - apply bind_ok in E as (w & _ & E). eauto.
  - destruct (negb (m_mid _)); [left; refine (chord_zero _ _ E); [exact HI|exact Hlv]|].
    unfold ret in E; injection E as <-; left; reflexivity.
Qed.
(** A step that answers 0 and leaves a running or won game has not changed the visible board. *)
Lemma step_zero s e p s' : Inv s -> step s e p = Ok (s', Some 0%nat) -> m_state s' = Playing \/ m_state s' = Win ->
  (m_state s = Playing \/ m_state s = Win) /\ m_gb s' = m_gb s.
Proof.
  intros HI E Hs'.
  destruct (m_state s) eqn:Hst.
  1,2: exfalso; destruct (pre_step_useful HI ltac:(auto) E) as [[Hq _]|[(_ & Ha & _)|(Hq & _)]]; [|discriminate|];
    intuition congruence.
  all: unfold step in E; rewrite Hst in E; try (unfold ret in E; injection E as <-; rewrite Hst in Hs'; auto; fail).
  - split; auto. destruct (playing_zero HI Hst E); auto. intuition congruence.
Qed.

Section Replay.
Variables (f : video) (HWF : well_formed f).
Definition same_meta (v : bv) : Prop :=
  b_state v = Display /\ b_cur v = 0%nat /\ v_pix (b_meta v) = v_pix f /\ v_width (b_meta v) = v_width f /\
  v_height (b_meta v) = v_height f /\ v_board (b_meta v) = v_board f /\ v_mine_num (b_meta v) = v_mine_num f.
Definition at_event (n : nat) (v : bv) (m : mb) : Prop :=
  same_meta v /\ game_after f n = Ok m /\ Inv m /\ length (b_rec v) = n /\
  (exists k sk pre g, last_effect f n k /\ game_after f k = Ok sk /\ b_stream v = pre ++ [g] /\ gb_board g = m_gb sk /\
     (m_state m = Playing \/ m_state m = Win -> m_gb sk = m_gb m)) /\
  forall i r, nth_error (b_rec v) i = Some r -> rec_shows f (b_stream v) i r /\
    exists e, nth_error (v_events f) i = Some e /\ r_time r = ve_ms e /\ r_mouse r = ve_mouse e /\ r_x r = ve_x e /\ r_y r = ve_y e.

Lemma nth_error_snoc {A} (l : list A) x i y : nth_error (l ++ [x]) i = Some y ->
  nth_error l i = Some y \/ (i = length l /\ y = x).
Proof.
  intros E. destruct (Nat.lt_ge_cases i (length l)) as [H|H]; [rewrite nth_error_app1 in E by auto; auto|].
  rewrite nth_error_app2 in E by auto. right. destruct (i - length l)%nat as [|n] eqn:En; cbn in E.
  - injection E as <-. split; [lia|reflexivity].
  - destruct n; discriminate.
Qed.
Lemma rec_shows_grow st st' i r : rec_shows f st i r -> rec_shows f (st ++ st') i r.
Proof.
  intros (s & k & sk & g & H1 & H2 & H3 & H4 & H5 & H6 & H7 & H8 & H9 & H10 & H11 & H12).
  exists s, k, sk, g. do 10 (split; [assumption|]). split; [|assumption].
  rewrite nth_error_app1; auto. apply nth_error_Some. congruence.
Qed.
Lemma replay_event n v m e v' m' : at_event n v m -> nth_error (v_events f) n = Some e ->
  analyse_event (v, m) (rec_of e) = Ok (v', m') -> at_event (S n) v' m'.
Proof.
  intros (Hm & Hg & HI & Hlen & (k & sk & pre & g & Hk & Hsk & Hst & Hgb & Hfresh) & Hrec) He E.
  assert (Hex : exists u vv hops next, step m (ve_mouse e) (cell_at f e) = Ok (m', Some u) /\
     v' = bw_rec vv (b_rec vv ++ [snap (ve_ms e) (ve_mouse e) (ve_x e) (ve_y e) u (length (b_stream v) - 1) next m' hops]) /\
     next = (length (b_stream vv) - 1)%nat /\ b_rec vv = b_rec v /\ same_meta vv /\
     ((u = 0%nat /\ b_stream vv = b_stream v) \/ ((1 <= u)%nat /\ exists g', b_stream vv = b_stream v ++ [g'] /\ gb_board g' = m_gb m'))).
  { unfold analyse_event in E. apply bind_ok in E as (prior & Ep & E). apply bind_ok in E as ([[v1 m1] u] & E1 & E).
    apply bind_ok in E as (next & En & E). apply bind_ok in E as (hops & _ & E). injection E as <- <-.
    unfold usub in Ep, En. destruct (1 <=? length (b_stream v))%nat; [|discriminate]. injection Ep as <-.
    destruct (1 <=? length (b_stream v1))%nat; [|discriminate]. injection En as <-.
    cbn [rec_of r_mouse r_time r_x r_y r_useful] in E1.
    destruct (event_eq_mv (ve_mouse e)) as [Em|Em].
    - rewrite Em in E1. injection E1 as <- <- <-. exists 0%nat, v, hops. eexists. rewrite Em, step_mv.
      split; [reflexivity|]. split; [cbn [rec_of r_mouse r_time r_x r_y]; rewrite ?Em; reflexivity|]. auto 8.
    - assert (E2 : (let* y := udiv (Z.to_nat (ve_y e)) (Z.to_nat (v_pix (b_meta v))) in
                    let* x := udiv (Z.to_nat (ve_x e)) (Z.to_nat (v_pix (b_meta v))) in
                    let* (m, o) := step m (ve_mouse e) (y, x) in
                    match o with
                    | None => Panic
                    | Some u => if (1 <=? u)%nat then
                        let g := set_game_board (gboard_new (Z.to_nat (v_mine_num (b_meta v)))) (m_gb m) in
                        let w := bw_stream v (b_stream v ++ [g]) in
                        let w := match m_state (m) with _ => w end in
                        Ok (w, m, u)
                      else Ok (v, m, u) end) = Ok (v1, m1, u) \/ True) by auto. clear E2.
      destruct (ve_mouse e) eqn:Eme; try congruence;
      (apply bind_ok in E1 as (y & Ey & E1); apply bind_ok in E1 as (x & Ex & E1); apply bind_ok in E1 as ([m2 o] & Es & E1);
       unfold udiv in Ex, Ey; destruct (Z.to_nat (v_pix (b_meta v)) =? 0)%nat; [discriminate|];
       injection Ex as <-; injection Ey as <-; destruct Hm as (M1 & M2 & M3 & M4 & M5 & M6 & M7);
       destruct o as [u'|]; [|discriminate]; rewrite M3 in Es;
       destruct (Nat.leb_spec 1 u') as [Hu|Hu];
       [ injection E1 as E1a E1b E1c; subst m2 u'; exists u, v1, hops; eexists;
         split; [exact Es|]; split; [cbn [rec_of r_mouse r_time r_x r_y]; rewrite ?Eme; reflexivity|]; split; [reflexivity|];
         destruct (m_state m); subst v1; (split; [reflexivity|]; split; [repeat split; assumption|]; right; split; [exact Hu|]; eexists; split; [reflexivity|]; reflexivity)
       | injection E1 as E1a E1b E1c; subst v1 m2 u'; exists u, v, hops; eexists;
         split; [exact Es|]; split; [cbn [rec_of r_mouse r_time r_x r_y]; rewrite ?Eme; reflexivity|]; split; [reflexivity|];
         split; [reflexivity|]; split; [repeat split; assumption|]; left; split; [lia|reflexivity] ]). }
  clear E. destruct Hex as (u & vv & hops & next & Es & -> & -> & Hvr & Hm' & Hcase).
  assert (Hg' : game_after f (S n) = Ok m') by (rewrite (game_after_next He Hg), Es; reflexivity).
  assert (HI' : Inv m') by (eapply step_inv; eauto).
  assert (Hlast : exists k sk pre g, last_effect f (S n) k /\ game_after f k = Ok sk /\ b_stream vv = pre ++ [g] /\ gb_board g = m_gb sk /\
     (m_state m' = Playing \/ m_state m' = Win -> m_gb sk = m_gb m')).
  { destruct Hcase as [[-> ->]|[Hu (g' & -> & Hg'b)]].
    - exists k, sk, pre, g. destruct Hk as (K1 & K2 & K3). split; [|split; [auto|split; [auto|split; [auto|]]]].
      + split; [lia|]. split; auto. intros j Hj. destruct (Nat.eq_dec j n) as [->|Hne]; [|apply K3; lia].
        intros (e' & s & s' & u & E1 & E2 & E3 & E4). rewrite He in E1. injection E1 as <-. rewrite Hg in E2. injection E2 as <-.
        rewrite Es in E3. injection E3 as <- <-. lia.
      + intros Hs. destruct (step_zero HI Es Hs) as [Hs0 ->]. auto.
    - exists (S n), m', (b_stream v), g'. split; [|auto 8]. split; [lia|]. split; [|intros j Hj; lia].
      intros j Hj. injection Hj as <-. exists e, m, m', u. auto. }
  split; [exact Hm'|]. split; auto. split; auto. cbn [b_rec bw_rec b_stream]. rewrite Hvr.
  split; [rewrite app_length; cbn [length]; lia|]. split; [exact Hlast|]. intros i r Hi.
  assert (Hgrow : exists x, b_stream vv = b_stream v ++ x).
  { destruct Hcase as [[_ ->]|[_ (g' & -> & _)]]; [exists []; now rewrite app_nil_r|eauto]. }
  destruct (nth_error_snoc Hi) as [Hi'|[-> ->]].
  - destruct (Hrec _ _ Hi') as [H1 H2]. split; auto. destruct Hgrow as (x & ->). now apply rec_shows_grow.
  - rewrite Hlen. split; [|exists e; auto 8]. destruct Hlast as (k' & sk' & pre' & g' & L1 & L2 & L3 & L4 & L5).
    exists m', k', sk', g'. cbn [snap r_mstate r_left r_right r_double r_ce r_flag r_solved r_next].
    do 7 (split; [auto|]). split; auto. split; auto. split; auto. split; [|auto].
    rewrite L3, app_length. cbn [length]. replace (length pre' + 1 - 1)%nat with (length pre') by lia.
    rewrite nth_error_app2 by lia. now rewrite Nat.sub_diag.
Qed.
Lemma replay_events : forall es n v m v' m', skipn n (v_events f) = es -> at_event n v m ->
  foldM analyse_event (map rec_of es) (v, m) = Ok (v', m') -> at_event (n + length es) v' m'.
Proof.
  induction es as [|e es IH]; intros n v m v' m' Hs Hat E.
  - injection E as <- <-. now rewrite Nat.add_0_r.
  - cbn [map foldM] in E. apply bind_ok in E as ([v1 m1] & E1 & E).
    assert (He : nth_error (v_events f) n = Some e).
    { clear - Hs. revert n Hs. induction (v_events f) as [|x l IH]; intros [|n] Hs; cbn in *; try discriminate; [now injection Hs as -> _|auto]. }
    assert (Hs' : skipn (S n) (v_events f) = es).
    { clear - Hs. revert n Hs. induction (v_events f) as [|x l IH]; intros [|n] Hs; cbn in *; try discriminate; [now injection Hs as _ ->|auto]. }
    replace (n + length (e :: es))%nat with (S n + length es)%nat by (cbn [length]; lia).
    eapply IH; [exact Hs'| |exact E]. eapply replay_event; eauto.
Qed.
Lemma replay_all raw now v : analyse (of_file f raw now) = Ok v -> exists m, at_event (length (v_events f)) v m.
Proof.
  destruct HWF as [Hl Hh]. unfold analyse. cbn [b_can of_file negb]. intros E. apply bind_ok in E as (m0 & E0 & E).
  apply bind_ok in E as ([v1 m1] & E1 & E). exists m1.
  assert (Hat : at_event (0 + length (v_events f)) v1 m1).
  { eapply replay_events; [reflexivity| |exact E1]. cbn [b_meta of_file vw_events v_board] in E0.
    destruct (new_inv Hl Hh E0) as (HI & _ & _ & _).
    assert (Hgb : m_gb m0 = mkboard (v_height f) (v_width f) 10).
    { unfold mb_new, get_row, get_column in E0. rewrite (ncolsR_ok (proj1 Hl) Hh), (nrows_ok (proj1 Hl)) in E0. now injection E0 as <-. }
    split; [repeat split|]. split; [unfold game_after; rewrite E0; reflexivity|]. split; auto. split; [reflexivity|].
    split; [|intros [|i] r Hi; discriminate].
    exists 0%nat, m0, []. eexists. split; [split; [lia|split; [discriminate|lia]]|].
    split; [unfold game_after; rewrite E0; reflexivity|]. split; [reflexivity|]. split; [|auto]. cbn. now rewrite Hgb. }
  cbn [Nat.add] in Hat. unfold cal_static_params in E. apply bind_ok in E as (x1 & _ & E). apply bind_ok in E as (x2 & _ & E).
  apply bind_ok in E as (x3 & _ & E). injection E as <-. exact Hat.
Qed.
End Replay.

(** What the getters should answer about the game [s]. *)
Definition counter_of (s : mb) (k : counter) : nat :=
  match k with
  | Left => m_left s | Right => m_right s | Double => m_double s
  | Cl => (m_left s + m_right s + m_double s)%nat | Flag => m_flag s
  end.
(** Going to the event number [i] of an analysed file shows the game after the events 0..i: all
    counters; the visible board as it was after the last event that took effect; and in a running or
    won game that is the visible board itself. *)
Theorem C62_playback : forall f raw now v, well_formed f -> analyse (of_file f raw now) = Ok v ->
  forall i e, nth_error (v_events f) i = Some e ->
  exists v' s k sk, set_current_event_id v i = Ok (v', Some 0%nat) /\ game_after f (S i) = Ok s /\
    b_time v' = ve_ms e - b_delta v /\
    (forall c, get_counter v' c = Ok (counter_of s c)) /\
    get_bbbv_solved v' = Ok (Some (m_solved s)) /\ get_ce v' = Ok (Some (m_ce s)) /\
    last_effect f (S i) k /\ game_after f k = Ok sk /\ get_game_board v' = Ok (m_gb sk) /\
    (m_state s = Playing \/ m_state s = Win -> get_game_board v' = Ok (m_gb s)).
Proof.
  intros f raw now v HWF E i e He. destruct (replay_all HWF E) as (m & Hm & _ & _ & Hlen & _ & Hrec).
  assert (Hi : (i < length (b_rec v))%nat) by (rewrite Hlen; apply nth_error_Some; congruence).
  destruct (nth_error (b_rec v) i) as [r|] eqn:Er; [|apply nth_error_None in Er; lia].
  destruct (Hrec i r Er) as [(s & k & sk & g & H1 & H2 & H3 & H4 & H5 & H6 & H7 & H8 & H9 & H10 & H11 & H12 & H13) (e' & He' & Ht & _)].
  rewrite He in He'. injection He' as <-.
  unfold set_current_event_id. destruct Hm as (Hd & _). rewrite Hd. cbn [b_rec bw_cur]. unfold vget. rewrite Er. cbn [bind].
  do 2 eexists. exists k, sk. split; [reflexivity|]. split; [exact H1|]. split; [cbn; now rewrite Ht|].
  unfold get_counter, get_bbbv_solved, get_ce, get_final, get_game_board.
  cbn [b_state b_rec b_stream b_cur bw_time bw_cur]. rewrite Hd. unfold vget. rewrite Er. cbn [bind]. rewrite H11. cbn [bind].
  split; [intros []; cbn; congruence|]. split; [congruence|]. split; [congruence|]. split; [exact H9|]. split; [exact H10|].
  rewrite H12. split; [reflexivity|]. intros Hs. now rewrite H13.
Qed.

(** A loss by a left click is not shown: at the losing event the replay still shows the mine covered. *)
Definition lost_file : video :=
  vw_events (vw_mine_num (vw_height (vw_width (vw_board video_default two_mines) 4) 4) 2)
    [VEv e_lc 0 16 0; VEv e_lr 900 16 0; VEv e_mv 950 100 0; VEv e_lc 1000 0 0; VEv e_lr 1100 0 0].
Lemma lost_well_formed : well_formed lost_file.
Proof. split; [apply two_legal|cbn; lia]. Qed.
Definition show (f : video) (i : nat) : R (board * nat * option (Z * Z)) :=
  let* v := analyse (of_file f [] 0) in
  let* (v, _) := set_current_event_id v i in
  let* g := get_game_board v in
  let* n := get_counter v Left in
  let* c := get_x_y v in
  Ok (g, n, c).
Example C62_case : well_formed lost_file /\
  show lost_file 0 = Ok (mkboard 4 4 10, 0%nat, Some (16, 0)) /\
  show lost_file 2 = Ok ([[10; 1; 10; 10]; [10; 10; 10; 10]; [10; 10; 10; 10]; [10; 10; 10; 10]], 1%nat, Some (16, 0)) /\
  show lost_file 3 = Ok ([[10; 1; 10; 10]; [10; 10; 10; 10]; [10; 10; 10; 10]; [10; 10; 10; 10]], 1%nat, Some (0, 0)).
Proof. split; [apply lost_well_formed|]. vm_compute. auto. Qed.
Theorem C62_refuted_losing_click : well_formed lost_file /\
  (exists s, game_after lost_file 5 = Ok s /\ m_state s = Loss /\ cell (m_gb s) (0, 0)%nat = 15) /\
  show lost_file 4 = Ok ([[10; 1; 10; 10]; [10; 10; 10; 10]; [10; 10; 10; 10]; [10; 10; 10; 10]], 2%nat, Some (0, 0)).
Proof.
  split; [apply lost_well_formed|]. split; [|vm_compute; reflexivity].
  eexists. split; [vm_compute; reflexivity|]. vm_compute. auto.
Qed.

(** The cursor: the newest event up to the current one that is not right of the board. *)
Definition newest (P : vev -> Prop) (es : list vev) (i : nat) (e : vev) : Prop :=
  exists j, (j <= i)%nat /\ nth_error es j = Some e /\ P e /\
    forall j' e', (j < j' <= i)%nat -> nth_error es j' = Some e' -> ~ P e'.
Lemma xy_loop_ok w rs : forall i, (i < length rs)%nat ->
  (exists j r, (j <= i)%nat /\ nth_error rs j = Some r /\ r_x r < w /\ xy_loop w rs i = Ok (r_x r, r_y r) /\
     forall j' r', (j < j' <= i)%nat -> nth_error rs j' = Some r' -> w <= r_x r') \/
  (xy_loop w rs i = Panic /\ forall j r, (j <= i)%nat -> nth_error rs j = Some r -> w <= r_x r).
Proof.
  induction i as [|i IH]; intros Hi; (match goal with |- context [xy_loop w rs ?n] => destruct (nth_error rs n) as [r|] eqn:Er; [|apply nth_error_None in Er; lia] end).
  all: cbn [xy_loop]; unfold vget; rewrite Er; cbn [bind]; destruct (Z.ltb_spec (r_x r) w) as [Hx|Hx].
  - left. exists 0%nat, r. split; [lia|]. split; auto. split; auto. split; auto. intros; lia.
  - right. split; auto. intros j r' Hj Ej. assert (j = 0%nat) by lia. subst. congruence.
  - left. exists (S i), r. split; [lia|]. split; auto. split; auto. split; auto. intros; lia.
  - destruct (IH ltac:(lia)) as [(j & r1 & H1 & H2 & H3 & H4 & H5)|[H1 H2]].
    + left. exists j, r1. split; [lia|]. split; auto. split; auto. split; auto. intros j' r' Hj' Ej'.
      destruct (Nat.eq_dec j' (S i)) as [->|]; [congruence|]. apply (H5 j'); auto. lia.
    + right. split; auto. intros j r' Hj Ej. destruct (Nat.eq_dec j (S i)) as [->|]; [congruence|]. apply (H2 j); auto. lia.
Qed.
Theorem C62_cursor : forall f raw now v, well_formed f -> 0 <= v_pix f * Z.of_nat (v_width f) < 65536 ->
  0 <= v_pix f < 65536 -> Z.of_nat (v_width f) < 65536 -> analyse (of_file f raw now) = Ok v ->
  forall i v' o, (i < length (v_events f))%nat -> set_current_event_id v i = Ok (v', o) ->
  let inside e := ve_x e < v_pix f * Z.of_nat (v_width f) in
  (exists e, newest inside (v_events f) i e /\ get_x_y v' = Ok (Some (ve_x e, ve_y e))) \/
  (get_x_y v' = Panic /\ forall j e, (j <= i)%nat -> nth_error (v_events f) j = Some e -> ~ inside e).
Proof.
  intros f raw now v HWF Hw Hp Hwd E i v' o Hi Es inside. destruct (replay_all HWF E) as (m & Hm & _ & _ & Hlen & _ & Hrec).
  destruct Hm as (Hd & _ & M1 & M2 & _). unfold set_current_event_id in Es. rewrite Hd in Es.
  apply bind_ok in Es as (r0 & _ & Es). injection Es as <- <-. unfold get_x_y. cbn [b_state bw_time bw_cur b_meta b_rec b_cur].
  rewrite Hd, M1, M2. unfold u16mul. rewrite !Z.mod_small by lia. destruct (Z.ltb_spec (v_pix f * Z.of_nat (v_width f)) 65536) as [Hlt|]; [|lia].
  cbn [bind].
  assert (Hall : forall j e, nth_error (v_events f) j = Some e -> exists r, nth_error (b_rec v) j = Some r /\ r_x r = ve_x e /\ r_y r = ve_y e).
  { intros j e He. assert (Hj : (j < length (b_rec v))%nat) by (rewrite Hlen; apply nth_error_Some; congruence).
    destruct (nth_error (b_rec v) j) as [r|] eqn:Er; [|apply nth_error_None in Er; lia].
    destruct (Hrec j r Er) as [_ (e' & He' & _ & _ & X & Y)]. rewrite He in He'. injection He' as <-. eauto. }
  assert (Hall' : forall j r, nth_error (b_rec v) j = Some r -> exists e, nth_error (v_events f) j = Some e /\ r_x r = ve_x e /\ r_y r = ve_y e).
  { intros j r Er. destruct (Hrec j r Er) as [_ (e' & He' & _ & _ & X & Y)]. eauto. }
  destruct (@xy_loop_ok (v_pix f * Z.of_nat (v_width f)) (b_rec v) i) as [(j & r & H1 & H2 & H3 & H4 & H5)|[H1 H2]]; [lia| |].
  - left. destruct (Hall' j r H2) as (e & He & X & Y). exists e. rewrite H4, X, Y. split; [|reflexivity].
    exists j. split; auto. split; auto. split; [unfold inside; lia|]. intros j' e' Hj' He'. destruct (Hall j' e' He') as (r' & Er' & X' & _).
    specialize (H5 j' r' Hj' Er'). unfold inside. lia.
  - right. rewrite H1. split; auto. intros j e Hj He. destruct (Hall j e He) as (r' & Er' & X' & _). specialize (H2 j r' Hj Er'). unfold inside. lia.
Qed.
(** The crash in it: an evf file whose first event is right of the board (or only such events up to the current one). *)
Example C62_cursor_crash : show (vw_events lost_file [VEv e_mv 0 64 0]) 0 = Panic.
Proof. now vm_compute. Qed.

(** ** C63. What is recorded. *)
(** [t] is the number of milliseconds nearest to [us] microseconds. *)
Definition nearest_ms (us t : Z) : Prop := -500 <= 1000 * t - us <= 500.
Definition finished (st : game_state) : Prop := st = Win \/ st = Loss \/ st = Display.

Lemma end_game_keeps v w t st v' : end_game v w t st = Ok v' ->
  b_mb v' = b_mb v /\ b_rec v' = b_rec v /\ b_video_start v' = b_video_start v.
Proof.
  unfold end_game, cal_static_params. intros E. apply bind_ok in E as (t' & _ & E). apply bind_ok in E as (n & _ & E).
  apply bind_ok in E as (x1 & _ & E). apply bind_ok in E as (x2 & _ & E). apply bind_ok in E as (x3 & _ & E).
  injection E as <-. now cbn.
Qed.
(** The clock starts with this event. *)
Definition clock_starts (old new : game_state) : bool :=
  match new with PreFlaging => negb (is_state old PreFlaging) | Playing => is_state old Ready | _ => false end.
Lemma bv_step_rec v now st e p v' o : bv_step v now st e p = Ok (v', o) ->
  (finished (m_state (b_mb v)) /\ v' = v /\ o = Some 0%nat) \/
  (~ finished (m_state (b_mb v)) /\
   exists x y m, x = (fst p / Z.to_nat (v_pix (b_meta v)))%nat /\ y = (snd p / Z.to_nat (v_pix (b_meta v)))%nat /\
   b_mb v' = m /\
   ((o = None /\ step (b_mb v) e (x, y) = Ok (m, None) /\ b_rec v' = b_rec v /\ b_video_start v' = b_video_start v) \/
    exists a, o = Some 0%nat /\ step (b_mb v) e (x, y) = Ok (m, Some a) /\
      ((m_state m = Ready /\ b_rec v' = [] /\ b_video_start v' = b_video_start v) \/
       (m_state m <> Ready /\
        b_video_start v' = (if clock_starts (m_state (b_mb v)) (m_state m) then now else b_video_start v) /\
        exists prior next hops, b_rec v' = b_rec v ++ [snap (if clock_starts (m_state (b_mb v)) (m_state m) then time_ms_between now now
             else time_ms_between now (b_video_start v)) e
           (Z.of_nat (snd p) mod 65536) (Z.of_nat (fst p) mod 65536) a prior next m hops])))).
Proof.
  unfold bv_step, finished. intros E.
  destruct (m_state (b_mb v)) eqn:Est; try (left; injection E as <- <-; auto; fail); right; (split; [intuition congruence|]); cbv zeta in E;
    apply bind_ok in E as (x & Ex & E); apply bind_ok in E as (y & Ey & E); apply bind_ok in E as ([m o'] & Es & E);
    unfold udiv in Ex, Ey; destruct (Z.to_nat (v_pix (b_meta v)) =? 0)%nat; try discriminate; injection Ex as <-; injection Ey as <-;
    do 2 eexists; exists m; (split; [reflexivity|]); (split; [reflexivity|]).
  all: destruct o' as [a|]; [|injection E as <- <-; split; [reflexivity|left; auto]].
  all: destruct (m_state m) eqn:Em; try (injection E as <- <-; split; [reflexivity|]; right; exists a; split; [reflexivity|]; split; [exact Es|]; left; auto; fail).
  all: apply bind_ok in E as ([v1 t1] & E1 & E); apply bind_ok in E as ([v2 hops] & E2 & E);
       apply bind_ok in E as ([[v3 prior] next] & E3 & E); injection E as <- <-; cbn [b_mb bw_rec b_rec b_video_start].
  all: assert (Q3 : b_mb v3 = b_mb v2 /\ b_rec v3 = b_rec v2 /\ b_video_start v3 = b_video_start v2) by
        (destruct (1 <=? a)%nat; [apply bind_ok in E3 as (n1 & _ & E3); apply bind_ok in E3 as (n2 & _ & E3); injection E3 as <- <- <-|
                                  apply bind_ok in E3 as (n1 & _ & E3); injection E3 as <- <- <-]; now cbn).
  all: assert (Q2 : b_mb v2 = b_mb v1 /\ b_rec v2 = b_rec v1 /\ b_video_start v2 = b_video_start v1) by
        (try (apply bind_ok in E2 as (r & _ & E2); injection E2 as <- <-; now cbn);
         destruct (_ =? 0)%nat; injection E2 as <- <-; now cbn).
  all: destruct Q3 as (-> & -> & ->), Q2 as (-> & -> & ->).
  all: assert (Q1 : b_mb v1 = m /\ b_rec v1 = b_rec v) by
        (try (injection E1 as <- <-; now cbn); apply bind_ok in E1 as (w & E1 & E1'); injection E1' as <- <-; apply end_game_keeps in E1; cbn in E1; tauto).
  all: destruct Q1 as (-> & ->); (split; [reflexivity|]); right; exists a; (split; [reflexivity|]); (split; [exact Es|]); right; (split; [discriminate|]);
    cbn [clock_starts is_state negb].
  all: try (injection E1 as <- <-; (split; [reflexivity|]); do 3 eexists; reflexivity).
  all: apply bind_ok in E1 as (w & E1 & E1'); injection E1' as <- <-; apply end_game_keeps in E1; cbn in E1; destruct E1 as (_ & _ & ->);
       split; [reflexivity|]; do 3 eexists; reflexivity.
Qed.

(** Every event of a running game is recorded, at its place and time; a refused event is not; when the
    game falls back to the start everything is forgotten; after the end nothing is recorded. *)
Theorem C63_every_event : forall v now stamp e p v' o, bv_step v now stamp e p = Ok (v', o) ->
  let before := m_state (b_mb v) in let after := m_state (b_mb v') in
  (finished before -> v' = v /\ o = Some 0%nat) /\
  (~ finished before -> o = None -> b_rec v' = b_rec v) /\
  (~ finished before -> o <> None -> after = Ready -> b_rec v' = []) /\
  (~ finished before -> o <> None -> after <> Ready ->
     exists r, b_rec v' = b_rec v ++ [r] /\ r_mouse r = e /\
       r_y r = Z.of_nat (fst p) mod 65536 /\ r_x r = Z.of_nat (snd p) mod 65536 /\
       r_mstate r = m_mouse (b_mb v') /\
       (b_video_start v' <= now -> now - b_video_start v' < 4294967000000 -> nearest_ms (now - b_video_start v') (r_time r))).
Proof.
  intros v now stamp e p v' o E before after. destruct (bv_step_rec E) as [(H1 & H2 & H3)|(H1 & x & y & m & _ & _ & Hm & H)].
  - split; auto. split; [|split]; contradiction.
  - subst before after. rewrite Hm. split; [contradiction|].
    destruct H as [(-> & H2 & H3 & _)|(a & -> & H2 & [(H3 & H4 & _)|(H3 & H4 & prior & next & hops & H5)])].
    + split; auto. split; congruence.
    + split; [discriminate|]. split; auto. contradiction.
    + split; [discriminate|]. split; [contradiction|]. intros _ _ _. eexists. split; [exact H5|]. cbn [snap r_mouse r_y r_x r_mstate r_time].
      do 4 (split; [reflexivity|]). rewrite H4. unfold nearest_ms, time_ms_between. intros K1 K2.
      destruct (clock_starts _ _); [rewrite Z.sub_diag; cbn; lia|].
      rewrite Z.max_r by lia. pose proof (Z.div_mod (now - b_video_start v + 500) 1000 ltac:(lia)) as D.
      pose proof (Z.mod_pos_bound (now - b_video_start v + 500) 1000 ltac:(lia)) as B. rewrite Z.min_r; lia.
Qed.

(** The clock readings of the calls of a session. *)
Definition clock (cs : list vcall) : list Z :=
  flat_map (fun c => match c with VStep now _ _ _ => [now] | _ => [] end) cs.
Definition nondecreasing (l : list Z) : Prop :=
  forall i j x y, (i <= j)%nat -> nth_error l i = Some x -> nth_error l j = Some y -> x <= y.
Definition timed (t : Z) (v : bv) : Prop :=
  b_video_start v <= t /\ (m_state (b_mb v) = Ready <-> b_rec v = []) /\
  (forall r, In r (b_rec v) -> 0 <= r_time r <= time_ms_between t (b_video_start v)) /\
  nondecreasing (map r_time (b_rec v)) /\ (forall r rs, b_rec v = r :: rs -> r_time r = 0).

Lemma tmb_mono t t' s : t <= t' -> time_ms_between t s <= time_ms_between t' s.
Proof.
  intros H. unfold time_ms_between. apply Z.min_le_compat_l. apply Z.div_le_mono; lia.
Qed.
Lemma tmb_pos t s : 0 <= time_ms_between t s.
Proof. unfold time_ms_between. apply Z.min_glb; [lia|]. apply Z.div_pos; lia. Qed.
Lemma tmb_self t : time_ms_between t t = 0.
Proof. unfold time_ms_between. now rewrite Z.sub_diag. Qed.
Lemma nondecreasing_snoc l x : nondecreasing l -> (forall y, In y l -> y <= x) -> nondecreasing (l ++ [x]).
Proof.
  intros H Hx i j a c Hij Ea Ec. destruct (nth_error_snoc Ec) as [Ec'|[-> ->]].
  - assert (j < length l)%nat by (apply nth_error_Some; congruence).
    rewrite nth_error_app1 in Ea by lia. exact (H i j a c Hij Ea Ec').
  - destruct (nth_error_snoc Ea) as [Ea'|[-> ->]]; [|lia]. apply Hx. eapply nth_error_In; eauto.
Qed.
Lemma timed_step t v now st e p v' o : timed t v -> t <= now -> bv_step v now st e p = Ok (v', o) -> Inv (b_mb v) -> timed now v'.
Proof.
  intros (T1 & T2 & T3 & T4 & T5) Ht E HI.
  assert (Hsame : b_rec v' = b_rec v -> b_video_start v' = b_video_start v -> (m_state (b_mb v') = Ready <-> b_rec v = []) -> timed now v').
  { intros Er Es Hr. unfold timed. rewrite Er, Es. split; [lia|]. split; auto. split; [|auto].
    intros r Hin. specialize (T3 r Hin). pose proof (@tmb_mono _ _ (b_video_start v) Ht). lia. }
  destruct (bv_step_rec E) as [(H1 & H2 & H3)|(H1 & x & y & m & _ & _ & Hm & H)].
  - subst. now apply Hsame.
  - destruct H as [(-> & H2 & H3 & H4)|(a & -> & H2 & [(H3 & H4 & H5)|(H3 & H4 & prior & next & hops & H5)])].
    + apply Hsame; auto. rewrite Hm. apply (step_none HI) in H2. subst m. now rewrite H2.
    + unfold timed. rewrite Hm, H4, H5. split; [lia|]. split; [tauto|]. split; [contradiction|]. split; [|discriminate].
      intros i j a' c _ Ea. destruct i; discriminate.
    + unfold timed. rewrite Hm, H4, H5. clear Hsame. split; [destruct (clock_starts _ _); lia|]. split; [split; [contradiction|intros En; now destruct (b_rec v)]|].
      destruct (clock_starts _ _) eqn:Eb.
      * assert (Er : b_rec v = []).
        { apply T2. unfold clock_starts in Eb. unfold finished in H1. destruct (m_state (b_mb v)) eqn:Hst; auto; try tauto; exfalso.
          - destruct (m_state m); discriminate.
          - unfold step in H2. rewrite Hst in H2. apply (step_playing_late Hst) in H2 as [L1 L2]. destruct (m_state m); try discriminate; auto. }
        rewrite Er. cbn [app map]. split; [|split].
        -- intros r [<-|[]]. cbn [r_time snap]. rewrite tmb_self. lia.
        -- intros [|i] [|j] a' c Hij Ea Ec; cbn in Ea, Ec; try (destruct i); try (destruct j); try discriminate. congruence || (injection Ea as <-; injection Ec as <-; lia).
        -- intros r rs Er'. injection Er' as <- _. apply tmb_self.
      * split; [|split].
        -- intros r Hin. apply in_app_iff in Hin as [Hin|[<-|[]]].
           ++ specialize (T3 r Hin). pose proof (@tmb_mono _ _ (b_video_start v) Ht). lia.
           ++ cbn [r_time snap]. pose proof (@tmb_pos now (b_video_start v)). lia.
        -- rewrite map_app. cbn [map]. apply nondecreasing_snoc; auto. intros t' Hin. apply in_map_iff in Hin as (r & <- & Hin).
           cbn [r_time snap]. specialize (T3 r Hin). pose proof (@tmb_mono _ _ (b_video_start v) Ht). lia.
        -- intros r rs Er'. destruct (b_rec v) as [|r1 rs1] eqn:Erec; cbn [app] in Er'; [|injection Er' as <- _; eapply T5; reflexivity].
           exfalso. assert (Hst : m_state (b_mb v) = Ready) by now apply T2.
           destruct (step_ready_cases HI Hst H2) as [(w & ->)|(Hp & _)]; [cbn in H3; congruence|].
           rewrite Hst, Hp in Eb. discriminate.
Qed.

(** In a session with a clock that never goes back the recorded times start at zero and never
    decrease. *)
Theorem C63_times : forall b row column pix t0 v0 cs v,
  legal_board row column b -> (0 < row)%nat -> new_before_game b pix t0 = Ok v0 ->
  forallb plays cs = true -> nondecreasing (t0 :: clock cs) -> vexec v0 cs = Ok v ->
  nondecreasing (map r_time (b_rec v)) /\ (forall r rs, b_rec v = r :: rs -> r_time r = 0) /\
  (forall r, In r (b_rec v) -> 0 <= r_time r) /\ (b_rec v = [] <-> m_state (b_mb v) = Ready).
Proof.
  intros b row column pix t0 v0 cs v Hl Hr E0 Hp Hc E.
  assert (H : Inv (b_mb v0) /\ timed t0 v0).
  { unfold new_before_game in E0. apply bind_ok in E0 as (n & _ & E0). apply bind_ok in E0 as (w & Ew & E0).
    apply bind_ok in E0 as (m & Em & E0). injection E0 as <-. cbn [b_mb]. destruct (new_inv Hl Hr Em) as (HI & _). split; auto.
    unfold timed. cbn [b_video_start b_rec b_mb map]. split; [lia|]. split; [|split; [contradiction|split; [|discriminate]]].
    - unfold mb_new in Em. apply bind_ok in Em as (c & _ & Em). injection Em as <-. cbn. tauto.
    - intros [|i] j x y _ Ex; discriminate. }
  destruct H as [HI HT]. clear E0.
  revert t0 v0 Hc E HI HT. induction cs as [|c cs IH]; intros t0 v0 Hc E HI (T1 & T2 & T3 & T4 & T5).
  - injection E as <-. split; auto. split; auto. split; [intros r Hin; now apply T3|tauto].
  - cbn [forallb] in Hp. apply andb_true_iff in Hp as [Hc0 Hp]. unfold vexec in E. cbn [foldM] in E.
    apply bind_ok in E as (v1 & E1 & E). fold (vexec v1 cs) in E.
    assert (Hkeep : b_mb v1 = b_mb v0 -> b_rec v1 = b_rec v0 -> b_video_start v1 = b_video_start v0 -> Inv (b_mb v1) /\ timed t0 v1).
    { intros Em Er Es. rewrite Em. split; [exact HI|]. unfold timed. rewrite Em, Er, Es. auto 6. }
    destruct c; try discriminate Hc0; cbn [vcall1] in E1.
    + apply bind_ok in E1 as ([v2 o] & E1 & E1'). injection E1' as <-. cbn [fst] in E.
      assert (Hle : t0 <= now) by (apply (Hc 0 1)%nat; [lia|reflexivity|reflexivity]).
      apply (IH Hp now v2); auto.
      * intros i j x y Hij Ex Ey. apply (Hc (S i) (S j)); auto. lia.
      * destruct (bv_step_mb E1) as ([->|(q & o' & Es)] & _); auto. eapply step_inv; eauto.
      * eapply timed_step; [|exact Hle|exact E1|exact HI]. repeat split; auto; try (now apply T2); now apply T3.
    + injection E1 as <-. destruct (Hkeep) as [HI' HT'].
      1-3: destruct c; cbn [bv_set]; unfold put; try (destruct (is_over (b_state v0)); reflexivity); try (destruct (_ && _); reflexivity); destruct (b_allow_rtime v0); reflexivity.
      now apply (IH Hp t0 (fst (bv_set v0 c))).
    + apply bind_ok in E1 as ([v2 o] & E1 & E1'). injection E1' as <-. unfold bv_set_checksum in E1.
      apply bind_ok in E1 as ([s o'] & E1 & E1'). injection E1' as <- <-. cbn [fst] in E, Hkeep.
      destruct Hkeep as [HI' HT']; [reflexivity|reflexivity|reflexivity|]. refine (IH Hp t0 _ Hc E HI' HT').
    + unfold bv_generate in E1. apply bind_ok in E1 as (raw & _ & E1). injection E1 as <-.
      destruct Hkeep as [HI' HT']; [reflexivity|reflexivity|reflexivity|]. refine (IH Hp t0 _ Hc E HI' HT').
Qed.
Lemma lost_clock : nondecreasing (0 :: clock lost_game).
Proof.
  assert (H0 : nondecreasing [0]).
  { intros [|i] [|j] x y Hij Ex Ey; cbn in Ex, Ey; try (destruct i); try (destruct j); try discriminate; injection Ex as <-; injection Ey as <-; lia. }
  change (0 :: clock lost_game) with (((([0] ++ [1000]) ++ [2000]) ++ [3000]) ++ [4000]).
  repeat apply nondecreasing_snoc; [exact H0|..]; intros y Hy; cbn in Hy; intuition lia.
Qed.
Example C63_case : exists v, session_on two_mines lost_game = Ok v /\ nondecreasing (0 :: clock lost_game) /\
  map r_time (b_rec v) = [0; 1; 2; 3] /\ map r_mouse (b_rec v) = [e_lc; e_lr; e_lc; e_lr].
Proof.
  destruct (session_on two_mines lost_game) as [v| | |] eqn:E; try (vm_compute in E; discriminate).
  exists v. split; auto. split.
  - apply lost_clock.
  - vm_compute in E. injection E as <-. vm_compute. auto.
Qed.
