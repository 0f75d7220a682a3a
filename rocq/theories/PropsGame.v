(** * PropsGame: the properties of the game state machine (C11-C19).

    [played row column b cs s]: a game created by [MinesweeperBoard::new] on the legal board [b],
    after the API calls [cs] ([step] with any event name and any position, in any order, and
    [reset]), none of which panicked, is in state [s]. *)
From Verif Require Import Base Spec BaseFacts LayMine LayMineProofs Metrics MetricsProofs
  Refresh RefreshProofs BBBVProofs MineBoard OpProofs MineBoardProofs MineBoardFrame GameStats.
Open Scope Z_scope.

Definition played (row column : nat) (b : board) (cs : list call) (s : mb) : Prop :=
  legal_board row column b /\ (0 < row)%nat /\ exists s0, mb_new b = Ok s0 /\ exec s0 cs = Ok s.

Definition running (st : game_state) : Prop := st = Ready \/ st = PreFlaging \/ st = Playing.
(** a number of the visible board: anything below 10 *)
Definition open_cell (s : mb) (q : pos) : Prop := cell (m_gb s) q < 10.

(** ** from one step to histories *)
Lemma exec_app cs1 : forall cs2 s, exec s (cs1 ++ cs2) = (let* s1 := exec s cs1 in exec s1 cs2).
Proof.
  unfold exec. induction cs1 as [|c cs1 IH]; intros cs2 s; [reflexivity|]. cbn [app foldM].
  destruct (call1 s c); cbn [bind]; auto.
Qed.
Lemma exec_board cs : forall s s', Inv s -> exec s cs = Ok s' ->
  m_row s' = m_row s /\ m_column s' = m_column s /\
  m_board s' = if existsb (fun c => match c with Reset => true | _ => false end) cs
               then mkboard (m_row s) (m_column s) 0 else m_board s.
Proof.
  unfold exec. induction cs as [|c cs IH]; intros s s' HI E; [injection E as <-; auto|].
  cbn [foldM] in E. apply bind_ok in E as (s1 & E1 & E). destruct c as [e p|]; cbn [call1 existsb orb] in *.
  - apply bind_ok in E1 as ([s2 o] & E1 & E2). injection E2 as <-. cbn [fst] in *.
    pose proof (step_counters HI E1) as K. pose proof (step_inv HI E1) as HI2.
    destruct (IH s2 s' HI2 E) as (A & B & C). now rewrite A, B, C, (k_row K), (k_column K), (k_board K).
  - injection E1 as <-. destruct (IH _ s' (reset_inv HI) E) as (A & B & C). rewrite A, B, C.
    cbn [mb_reset m_row m_column m_board]. split; auto. split; auto. now destruct (existsb _ _).
Qed.
Lemma played_inv row column b cs s : played row column b cs s ->
  Inv s /\ m_row s = row /\ m_column s = column /\
  m_board s = if existsb (fun c => match c with Reset => true | _ => false end) cs
              then mkboard row column 0 else b.
Proof.
  intros (Hl & Hr & s0 & E0 & E). destruct (new_inv Hl Hr E0) as (HI & <- & <- & <-).
  split; [eapply exec_inv; eauto|]. exact (exec_board HI E).
Qed.

(** a 3x3 board with one mine, used for the concrete cases below *)
Definition demo_board : board := [[0; 1; -1]; [0; 1; 1]; [0; 0; 0]].
Lemma demo_legal : legal_board 3 3 demo_board.
Proof.
  split; [split; [reflexivity|repeat constructor]|].
  intros [i j] [Hi Hj]; cbn [fst snd] in *.
  assert (Hd : (i = 0 \/ i = 1 \/ i = 2)%nat) by lia.
  assert (Hj' : (j = 0 \/ j = 1 \/ j = 2)%nat) by lia.
  destruct Hd as [->|[->| ->]]; destruct Hj' as [->|[->| ->]]; vm_compute; auto.
Qed.
Definition run (b : board) (cs : list call) : R mb := let* s := mb_new b in exec s cs.
Lemma run_played b cs s row column : legal_board row column b -> (0 < row)%nat -> run b cs = Ok s ->
  played row column b cs s.
Proof. intros Hl Hr E. apply bind_ok in E as (s0 & E0 & E). split; auto. split; auto. eauto. Qed.

(** ** C11 *)
Theorem C11_visible_board_never_lies : forall row column b cs s,
  played row column b cs s ->
  m_row s = row /\ m_column s = column /\ rect row column (m_gb s) /\
  m_board s = (if existsb (fun c => match c with Reset => true | _ => false end) cs
               then mkboard row column 0 else b) /\
  (forall q, inb row column q ->
     (cell (m_gb s) q < 10 -> cell (m_gb s) q = cell (m_board s) q /\ cell (m_board s) q <> -1) /\
     (cell (m_gb s) q = 15 -> cell (m_board s) q = -1) /\
     (cell (m_gb s) q = 14 -> cell (m_board s) q <> -1) /\
     (10 <= cell (m_gb s) q -> In (cell (m_gb s) q) [10; 11; 14; 15]) /\
     (running (m_state s) -> In (cell (m_gb s) q) [0; 1; 2; 3; 4; 5; 6; 7; 8; 10; 11])).
Proof.
  intros row column b cs s H. destruct (played_inv H) as (HI & Er & Ec & Eb).
  split; auto. split; auto. split; [rewrite <- Er, <- Ec; apply HI|]. split; auto.
  intros q Hq. rewrite <- Er, <- Ec in Hq.
  pose proof (@i_shape _ _ _ _ _ _ _ _ _ HI q Hq) as Hsh.
  assert (Hsafe : cell (m_board s) q <> -1 -> 0 <= cell (m_board s) q <= 8).
  { intros Hn. apply (safe_range (i_legal HI) (i_row HI) Hq Hn). }
  split; [|split; [|split; [|split]]].
  - intros Hlt. exact (good_eq (i_legal HI) Hq Hsh Hlt).
  - intros E. destruct Hsh as [[?|[?|[E1 E2]]]|[[? ?]|[? ?]]]; try lia.
  - intros E. destruct Hsh as [[?|[?|[E1 E2]]]|[[? ?]|[? ?]]]; try lia.
  - intros E. destruct Hsh as [[->|[->|[E1 E2]]]|[[-> ?]|[-> ?]]]; simpl; auto 10. specialize (Hsafe E2). lia.
  - intros Hrun. destruct (@i_live _ _ _ _ _ _ _ _ _ HI Hrun q Hq) as [->|[->|[E1 E2]]]; [simpl; tauto|simpl; tauto|].
    specialize (Hsafe E2). rewrite E1. clear - Hsafe. cbn [In]. lia.
Qed.
Print Assumptions C11_visible_board_never_lies.
(** hypotheses met: one number open, one flag placed, a chord tried in between *)
Example C11_example : exists s,
  played 3 3 demo_board [Step e_lc (0, 1); Step e_lr (0, 1); Step e_mc (0, 1); Step e_mr (0, 1);
                         Step e_rc (1, 2); Step e_rr (1, 2)]%nat s /\
  m_state s = Playing /\ m_gb s = [[10; 1; 10]; [10; 10; 11]; [10; 10; 10]] /\ m_flag s = 1%nat.
Proof.
  eexists. split; [|split; [|split]]; [apply run_played; [exact demo_legal|lia|vm_compute; reflexivity]|vm_compute; reflexivity..].
Qed.

(** ** C12 *)
Theorem C12_win_iff_all_safe_open : forall row column b cs s,
  played row column b cs s ->
  (exists q, inb row column q /\ cell (m_board s) q <> -1) ->
  (m_state s = Win <->
   forall q, inb row column q -> cell (m_board s) q <> -1 -> cell (m_gb s) q = cell (m_board s) q).
Proof.
  intros row column b cs s H Hex. destruct (played_inv H) as (HI & Er & Ec & Eb). subst row column.
  split; [intros E; exact (i_win HI E)|]. intros Hall.
  assert (Hno : ~ exists q, inb (m_row s) (m_column s) q /\ cell (m_board s) q <> -1 /\ 10 <= cell (m_gb s) q).
  { intros (q & Hq & Hn & Hge). rewrite (Hall q Hq Hn) in Hge.
    pose proof (safe_range (i_legal HI) (i_row HI) Hq Hn). lia. }
  destruct (m_state s) eqn:Hst; auto; exfalso.
  1,2,3: apply Hno, (i_unfin HI); [rewrite Hst; unfold live; auto|auto].
  - apply Hno, (i_loss HI); auto.
  - now apply (i_nodisp HI).
Qed.
Print Assumptions C12_win_iff_all_safe_open.
Example C12_example : exists s,
  played 3 3 demo_board [Step e_lc (0, 1); Step e_lr (0, 1); Step e_lc (2, 0); Step e_lr (2, 0)]%nat s /\
  m_state s = Win /\ m_gb s = [[0; 1; 10]; [0; 1; 1]; [0; 0; 0]] /\
  exists q, inb 3 3 q /\ cell (m_board s) q <> -1.
Proof.
  eexists. split; [|split; [|split]]; [apply run_played; [exact demo_legal|lia|vm_compute; reflexivity]|vm_compute; reflexivity..|].
  exists (0, 0)%nat. split; [unfold inb; cbn; lia|vm_compute; discriminate].
Qed.

(** ** C13 *)
Theorem C13_finished_game_is_frozen : forall s,
  m_state s = Win \/ m_state s = Loss ->
  (forall e p, step s e p = Ok (s, Some 0%nat)) /\
  (forall evs, step_flow s evs = Ok (s, Some tt)) /\
  (forall evs, exec s (map (fun '(e, p) => Step e p) evs) = Ok s).
Proof.
  intros s Hst. assert (H : forall e p, step s e p = Ok (s, Some 0%nat)).
  { intros e p. unfold step, ret. destruct Hst as [-> | ->]; reflexivity. }
  split; auto. split; induction evs as [|[e p] evs IH]; try reflexivity.
  - cbn [step_flow]. rewrite H. exact IH.
  - unfold exec in *. cbn [map foldM call1]. rewrite H. exact IH.
Qed.
Print Assumptions C13_finished_game_is_frozen.

(** ** C14 *)
Theorem C14_flag_counter : forall row column b cs s,
  played row column b cs s -> running (m_state s) ->
  m_flag s = count (fun q => cell (m_gb s) q =? 11) (positions row column).
Proof.
  intros row column b cs s H Hrun. destruct (played_inv H) as (HI & <- & <- & Eb). exact (i_flag HI Hrun).
Qed.
Print Assumptions C14_flag_counter.

(** ** C15 *)
Lemma fine_exec cs : forall s, Inv s -> NF s ->
  (forall pre e p s1, (exists post, cs = pre ++ Step e p :: post) -> exec s pre = Ok s1 -> fine s1 e p) ->
  exists s', exec s cs = Ok s'.
Proof.
  induction cs as [|c cs IH]; intros s HI HN Hf; [exists s; reflexivity|].
  unfold exec; cbn [foldM]. destruct c as [e p|]; cbn [call1].
  - destruct (@step_total s e p HI HN) as (s1 & o & E & HN1).
    { apply (Hf [] e p s); [now exists cs|reflexivity]. }
    rewrite E. cbn [bind fst]. apply IH; auto; [eapply step_inv; eauto|].
    intros pre e' p' s2 (post & ->) E2. apply (Hf (Step e p :: pre) e' p' s2); [now exists post|].
    unfold exec; cbn [foldM call1]. rewrite E. exact E2.
  - cbn [bind]. apply IH; [now apply reset_inv|apply NF_reset|].
    intros pre e' p' s2 (post & ->) E2. apply (Hf (Reset :: pre) e' p' s2); [now exists post|]. exact E2.
Qed.

(** Every position is in the board, or is the special out-of-board position (row, column) used by
    the library for an event that does not look at the board there (mv lc lr rr mc cc l crl crr);
    a "pf" event is only sent for a cell that is still covered. Then no call panics. *)
Theorem C15_no_crash_partial : forall row column b s0 cs,
  legal_board row column b -> (0 < row)%nat -> mb_new b = Ok s0 ->
  (forall e p, In (Step e p) cs ->
     inb row column p \/ (p = (row, column) /\ ~ In e [e_rc; e_r; e_m; e_mr; e_pf])) ->
  (forall pre p post s1, cs = pre ++ Step e_pf p :: post -> exec s0 pre = Ok s1 ->
     running (m_state s1) -> cell (m_gb s1) p = 10) ->
  exists s, exec s0 cs = Ok s.
Proof.
  intros row column b s0 cs Hl Hr E0 Hin Hpf. destruct (new_inv Hl Hr E0) as (HI & <- & <- & _).
  apply fine_exec; auto; [eapply NF_new; eauto|].
  intros pre e p s1 (post & E) E1. destruct (exec_board HI E1) as (Er & Ec & _). split.
  - unfold fine_pos. rewrite Er, Ec. destruct (Hin e p) as [?|[? Hn]]; auto.
    { rewrite E. apply in_app_iff. right. now left. }
    right. split; auto. simpl in Hn. intuition (subst; tauto).
  - intros -> Hst. apply (Hpf pre p post s1); auto. unfold running. tauto.
Qed.
Print Assumptions C15_no_crash_partial.
Corollary C15_no_crash_in_board_partial : forall row column b s0 cs,
  legal_board row column b -> (0 < row)%nat -> mb_new b = Ok s0 ->
  (forall e p, In (Step e p) cs -> inb row column p /\ e <> e_pf) ->
  exists s, exec s0 cs = Ok s.
Proof.
  intros row column b s0 cs Hl Hr E0 Hin. eapply C15_no_crash_partial; eauto.
  - intros e p Hi. left. now apply Hin in Hi.
  - intros pre p post s1 E. exfalso. destruct (Hin e_pf p); [|contradiction].
    rewrite E. apply in_app_iff. right. now left.
Qed.
Print Assumptions C15_no_crash_in_board_partial.

(** The full claim is false: each of these histories panics. *)
Theorem C15_refuted_out_of_board :
  legal_board 3 3 demo_board /\
  (* middle button released over the border *)
  run demo_board [Step e_lc (0, 1)%nat; Step e_lr (0, 1)%nat; Step e_mc (3, 3)%nat; Step e_mr (3, 3)%nat] = Panic /\
  (* right-press outside, then a chord: the right-click counter underflows *)
  run demo_board [Step e_lc (0, 1)%nat; Step e_lr (0, 1)%nat; Step e_rc (3, 3)%nat; Step e_lc (0, 1)%nat;
                  Step e_lr (0, 1)%nat] = Panic /\
  (* left release at an out-of-board position that is not (row, column) *)
  run demo_board [Step e_lc (0, 0)%nat; Step e_lr (3, 0)%nat] = Panic /\
  (* pre-flagging the same cell twice *)
  run demo_board [Step e_pf (0, 2)%nat; Step e_pf (0, 2)%nat] = Panic.
Proof. split; [exact demo_legal|]. vm_compute. auto. Qed.
Print Assumptions C15_refuted_out_of_board.

(** ** C16 *)
Lemma exec_W cs : forall s s', Inv s -> W s -> exec s cs = Ok s' -> W s'.
Proof.
  unfold exec. induction cs as [|c cs IH]; intros s s' HI HW E; [injection E as <-; auto|].
  cbn [foldM] in E. apply bind_ok in E as (s1 & E1 & E). destruct c as [e p|]; cbn [call1] in *.
  - apply bind_ok in E1 as ([s2 o] & E1 & E2). injection E2 as <-. cbn [fst] in *.
    eapply IH; [| |exact E]; [eapply step_inv; eauto|eapply W_step; eauto].
  - injection E1 as <-. eapply IH; [| |exact E]; [now apply reset_inv|]. intros Hw; discriminate.
Qed.
(** an opened mine is displayed as 15 (see C09): in every reachable state, if any cell shows 15 then
    it is a mine and the game is lost *)
Theorem C16_hit_mine_loses : forall row column b cs s q,
  played row column b cs s -> inb row column q -> cell (m_gb s) q = 15 ->
  cell (m_board s) q = -1 /\ m_state s = Loss.
Proof.
  intros row column b cs s q H Hq E. destruct (C11_visible_board_never_lies H) as (_ & _ & _ & _ & Hc).
  split; [now apply (Hc q Hq)|]. destruct (played_inv H) as (HI & Er & Ec & Eb).
  destruct (m_state s) eqn:Hst; auto.
  1,2,3: exfalso; destruct (Hc q Hq) as (_ & _ & _ & _ & Hlive);
    assert (Hrun : running (m_state s)) by (rewrite Hst; unfold running; auto);
    rewrite Hst in Hrun; specialize (Hlive Hrun); rewrite E in Hlive; simpl in Hlive;
    decompose [or] Hlive; try discriminate; contradiction.
  - exfalso. destruct H as (Hl & Hr & s0 & E0 & E1). destruct (new_inv Hl Hr E0) as (HI0 & _ & _ & _).
    assert (HW0 : W s0).
    { intros Hw. unfold mb_new in E0. apply bind_ok in E0 as (c & _ & E0). injection E0 as <-. discriminate. }
    rewrite <- Er, <- Ec in Hq. exact (exec_W HI0 HW0 E1 Hst Hq E).
  - exfalso. now apply (i_nodisp HI).
Qed.
Print Assumptions C16_hit_mine_loses.
(** a left click on a covered mine always loses *)
Theorem C16_left_click_on_mine_loses : forall row column b cs s p,
  played row column b cs s -> m_state s = Playing -> m_mouse s = DownUp ->
  inb row column p -> cell (m_gb s) p = 10 -> cell (m_board s) p = -1 ->
  exists s', step s e_lr p = Ok (s', Some 0%nat) /\ m_state s' = Loss /\ cell (m_gb s') p = 15.
Proof.
  intros row column b cs s p H Hst Hm Hp H10 Hmine. destruct (played_inv H) as (HI & <- & <- & Eb).
  assert (Hlv : live (m_state s)) by (rewrite Hst; unfold live; auto).
  unfold step. rewrite Hst. cbn [step_playing]. rewrite Hm. unfold left_at.
  destruct (at_corner (w_mouse s UpUp) p) eqn:Ec.
  { exfalso. apply (corner_iff (w_mouse s UpUp)) in Ec. destruct Hp as [A B]. rewrite Ec in A, B. simpl in *. lia. }
  destruct (@left_total (w_mouse s UpUp) HI Hlv p Hp) as (s' & o & E & Hr). rewrite E.
  destruct Hr as [Hn|g' _ _ Eg|g' k s' _ Hn].
  - exfalso. cbn [m_gb w_mouse] in Hn. rewrite pos_eta in Hn. auto.
  - eexists. split; [reflexivity|]. split; [reflexivity|]. cbn [m_gb w_state w_gb w_left w_mouse] in *.
    cbn [m_board w_mouse] in Eg. rewrite pos_eta in Eg.
    destruct (@click_on_mine (m_row s) (m_column s) (m_board s) (m_gb s) p) as (g2 & E2 & _ & E15 & _); auto;
      try apply HI; [now apply Z.eqb_eq|]. rewrite Eg in E2. injection E2 as <-. exact E15.
  - exfalso. cbn [m_board w_mouse] in Hn. rewrite pos_eta in Hn. auto.
Qed.
Print Assumptions C16_left_click_on_mine_loses.

(** hypotheses met: a chord next to a wrong flag explodes *)
Example C16_example : exists s,
  run [[-1; 1; 0]] [Step e_lc (0, 1)%nat; Step e_lr (0, 1)%nat; Step e_rc (0, 2)%nat; Step e_rr (0, 2)%nat;
                    Step e_mc (0, 1)%nat; Step e_mr (0, 1)%nat] = Ok s /\
  m_gb s = [[15; 1; 14]] /\ m_state s = Loss.
Proof. eexists. split; [vm_compute; reflexivity|]. vm_compute. auto. Qed.

(** ** C17 *)
Theorem C17_step_flow_split : forall ops1 ops2 s,
  step_flow s (ops1 ++ ops2) =
  (let* r := step_flow s ops1 in
   match r with (s1, Some _) => step_flow s1 ops2 | (s1, None) => Ok (s1, None) end).
Proof.
  induction ops1 as [|[e p] ops1 IH]; intros ops2 s; [reflexivity|].
  cbn [app step_flow]. destruct (step s e p) as [[s1 [n|]]| | |]; cbn [bind]; auto.
Qed.
Print Assumptions C17_step_flow_split.
Theorem C17_step_flow_is_stepping : forall ops s s' r,
  step_flow s ops = Ok (s', r) ->
  exists done rest, ops = done ++ rest /\
    exec s (map (fun '(e, p) => Step e p) done) = Ok s' /\
    (r = Some tt -> rest = [] /\
       forall pre e p post s1, ops = pre ++ (e, p) :: post ->
         exec s (map (fun '(e, p) => Step e p) pre) = Ok s1 -> exists s2 n, step s1 e p = Ok (s2, Some n)) /\
    (r = None -> exists pre e p s1, done = pre ++ [(e, p)] /\
         exec s (map (fun '(e, p) => Step e p) pre) = Ok s1 /\ step s1 e p = Ok (s', None)).
Proof.
  induction ops as [|[e p] ops IH]; intros s s' r E; cbn [step_flow] in E.
  - injection E as <- <-. exists [], []. split; auto. split; [reflexivity|]. split; [|discriminate].
    intros _. split; auto. intros pre e p post s1 H. destruct pre; discriminate.
  - apply bind_ok in E as ([s1 [n|]] & E1 & E).
    + destruct (IH _ _ _ E) as (dn & rest & -> & Ex & H1 & H2).
      exists ((e, p) :: dn), rest. split; auto. split; [unfold exec in *; cbn [map foldM call1]; now rewrite E1|]. split.
      * intros Hr. destruct (H1 Hr) as [-> H]. split; auto. intros pre e' p' post s2 Eq Ex2. destruct pre as [|x pre].
        -- injection Eq as <- <- _. unfold exec in Ex2; cbn [map foldM] in Ex2. injection Ex2 as <-. eauto.
        -- injection Eq as <- Eq. unfold exec in Ex2; cbn [map foldM call1] in Ex2. rewrite E1 in Ex2. cbn [bind fst] in Ex2.
           eapply H; eauto.
      * intros Hr. destruct (H2 Hr) as (pre & e' & p' & s2 & -> & Ex2 & E2). exists ((e, p) :: pre), e', p', s2.
        split; auto. split; auto. unfold exec in *; cbn [map foldM call1]. now rewrite E1.
    + injection E as <- <-. exists [(e, p)], ops. split; auto. split; [unfold exec; cbn [map foldM call1]; now rewrite E1|].
      split; [discriminate|]. intros _. exists [], e, p, s. auto.
Qed.
Print Assumptions C17_step_flow_is_stepping.
Example C17_example : exists s0 s, mb_new demo_board = Ok s0 /\
  step_flow s0 [(e_lc, (0, 1)%nat); (e_lr, (0, 1)%nat); (e_cc, (0, 1)%nat); (e_lc, (0, 0)%nat)] = Ok (s, None) /\
  step_flow s0 [(e_lc, (0, 1)%nat); (e_lr, (0, 1)%nat)] = Ok (s, Some tt) /\ m_left s = 1%nat.
Proof. eexists. eexists. split; [vm_compute; reflexivity|]. split; [vm_compute; reflexivity|]. split; [vm_compute; reflexivity|]. reflexivity. Qed.

(** ** C18 *)
(** one event: the effective-click counter moves by at most one, solved 3BV grows only together with
    it, and outside a return from pre-flagging to Ready no counter drops, except right by one (the
    press becomes part of a double click) *)
Theorem C18_counters_one_event : forall row column b cs s e p s' o,
  played row column b cs s -> step s e p = Ok (s', o) ->
  (m_ce s <= m_ce s' <= S (m_ce s))%nat /\ (m_solved s <= m_solved s')%nat /\
  (m_solved s < m_solved s' -> m_ce s' = S (m_ce s))%nat /\
  ((m_left s <= m_left s' /\ m_double s <= m_double s' /\ m_right s <= S (m_right s'))%nat \/
   (m_state s = PreFlaging /\ m_state s' = Ready)).
Proof.
  intros row column b cs s e p s' o H E. destruct (played_inv H) as (HI & _).
  destruct (step_counters HI E). auto.
Qed.
Print Assumptions C18_counters_one_event.

Definition weighed (s : mb) : Prop := (m_ce s + nf s <= m_left s + m_right s + m_double s)%nat.
Lemma exec_weight cs : forall s s', Inv s -> weighed s ->
  (forall e p, In (Step e p) cs -> inb (m_row s) (m_column s) p) ->
  (forall pre post s1, cs = pre ++ post -> exec s pre = Ok s1 -> m_state s1 = Ready -> m_ce s1 = 0%nat) ->
  exec s cs = Ok s' -> weighed s'.
Proof.
  unfold exec. induction cs as [|c cs IH]; intros s s' HI HW Hin Hrd E; [injection E as <-; auto|].
  cbn [foldM] in E. apply bind_ok in E as (s1 & E1 & E).
  assert (Hrd1 : forall pre post s2, cs = pre ++ post -> foldM call1 pre s1 = Ok s2 -> m_state s2 = Ready -> m_ce s2 = 0%nat).
  { intros pre post s2 -> E2. apply (Hrd (c :: pre) post s2); auto. cbn [foldM]. now rewrite E1. }
  destruct c as [e p|]; cbn [call1] in *.
  - apply bind_ok in E1 as ([s2 o] & E1 & E2). injection E2 as <-. cbn [fst] in *.
    pose proof (step_inv HI E1) as HI2. pose proof (step_counters HI E1) as K.
    eapply (IH s2); eauto.
    + destruct (k_weight K) as [Hw|(A & B & C & D)].
      * left. apply (Hin e). now left.
      * unfold weighed, clicks in *. lia.
      * unfold weighed. rewrite C, (Hrd1 [] cs s2); auto. lia.
    + rewrite (k_row K), (k_column K). intros; eapply Hin; right; eauto.
  - injection E1 as <-. eapply (IH (mb_reset s)); eauto.
    + now apply reset_inv.
    + unfold weighed. cbn. lia.
    + cbn [mb_reset m_row m_column]. intros; eapply Hin; right; eauto.
Qed.
(** ce never exceeds left + right + double, for in-board events, provided the machine never sits in
    the Ready state with an already counted effective click (see the refutation below: un-pre-flagging
    clears the click counters but not ce). *)
Theorem C18_ce_bounded_partial : forall row column b cs s s0,
  legal_board row column b -> (0 < row)%nat -> mb_new b = Ok s0 -> exec s0 cs = Ok s ->
  (forall e p, In (Step e p) cs -> inb row column p) ->
  (forall pre post s1, cs = pre ++ post -> exec s0 pre = Ok s1 -> m_state s1 = Ready -> m_ce s1 = 0%nat) ->
  (m_ce s <= m_left s + m_right s + m_double s)%nat.
Proof.
  intros row column b cs s s0 Hl Hr E0 E Hin Hrd. destruct (new_inv Hl Hr E0) as (HI & <- & <- & _).
  enough (weighed s) by (unfold weighed in *; lia).
  eapply exec_weight; eauto. unfold mb_new in E0. apply bind_ok in E0 as (c & _ & E0). injection E0 as <-. unfold weighed; cbn; lia.
Qed.
Print Assumptions C18_ce_bounded_partial.
(** without pre-flagging the proviso holds: a game opened by a left click *)
Lemma early_ready s e p s' o : Inv s -> m_state s <> Ready -> m_state s <> PreFlaging -> step s e p = Ok (s', o) ->
  m_state s' <> Ready /\ m_state s' <> PreFlaging.
Proof.
  intros HI H1 H2 E. unfold step in E. destruct (m_state s) eqn:Hst; try congruence;
   try (unfold ret in E; injection E as <- <-; rewrite Hst; split; discriminate).
  eapply step_playing_late; eauto.
Qed.
Theorem C18_ce_bounded_no_preflag : forall row column b q evs s s0,
  legal_board row column b -> mb_new b = Ok s0 -> inb row column q ->
  (forall e p, In (e, p) evs -> inb row column p) ->
  exec s0 (map (fun '(e, p) => Step e p) ((e_lc, q) :: (e_lr, q) :: evs)) = Ok s ->
  (m_ce s <= m_left s + m_right s + m_double s)%nat.
Proof.
  intros row column b q evs s s0 Hl E0 Hq Hin E.
  assert (Hr : (0 < row)%nat) by (destruct Hq; lia).
  destruct (new_inv Hl Hr E0) as (HI & Er & Ec & _).
  assert (E0' : s0 = MB b (mkboard row column 10) [] 0 0 0 0 0 0 row column UpUp Ready 0 0 0 false).
  { unfold mb_new in E0. apply bind_ok in E0 as (c & E1 & E0). injection E0 as <-. cbn in Er, Ec. now subst. }
  set (s1 := w_state (w_mouse s0 DownUp) PreFlaging).
  assert (Es1 : step s0 e_lc q = Ok (s1, Some 0%nat)).
  { unfold step, s1. rewrite E0'. cbn [m_state step_ready m_mouse].
    match goal with |- context [in_board ?t q] => assert (Eb : in_board t q = true) by (apply in_board_iff; exact Hq) end.
    rewrite Eb. reflexivity. }
  eapply (@C18_ce_bounded_partial row column b); eauto.
  - intros e p Hi. cbn [map] in Hi. destruct Hi as [Hi|[Hi|Hi]]; try (injection Hi as <- <-; exact Hq).
    apply in_map_iff in Hi as ([e' p'] & Eq & Hi). injection Eq as -> ->. eauto.
  - intros pre post s2 Eq Ex Hst. cbn [map] in Eq. destruct pre as [|c1 pre].
    { unfold exec in Ex; cbn in Ex. injection Ex as <-. now rewrite E0'. }
    cbn [app] in Eq. injection Eq as <- Eq. unfold exec in Ex; cbn [foldM call1] in Ex. rewrite Es1 in Ex. cbn [bind fst] in Ex.
    destruct pre as [|c2 pre].
    { cbn [foldM] in Ex. injection Ex as <-. discriminate. }
    cbn [app] in Eq. injection Eq as <- Eq. cbn [foldM call1] in Ex. apply bind_ok in Ex as (s3 & E3 & Ex).
    apply bind_ok in E3 as ([s4 o] & E3 & E4). injection E4 as <-. cbn [fst] in *.
    assert (HI1 : Inv s1) by (eapply step_inv; eauto).
    assert (H4 : m_state s4 <> Ready /\ m_state s4 <> PreFlaging).
    { unfold step in E3. cbn [m_state s1 w_state w_mouse step_preflag m_mouse] in E3.
      assert (Ecn : at_corner s1 q = false).
      { destruct (at_corner s1 q) eqn:Ecn; auto. apply corner_iff in Ecn. unfold s1 in Ecn. rewrite E0' in Ecn. destruct Hq as [A B]. rewrite Ecn in A, B. cbn in A, B. lia. }
      fold s1 in E3. rewrite Ecn in E3. apply bind_ok in E3 as (w & Ew & E3).
      apply (get_inv 0 (i_rect HI1)) in Ew as [_ Ew]. change (gcell 0) with cell in Ew.
      assert (E10 : w = 10). { rewrite Ew. unfold s1. rewrite E0'. cbn [m_gb w_state w_mouse]. apply cell_mkboard. exact Hq. }
      rewrite E10 in E3. cbn [Z.eqb Pos.eqb] in E3. eapply step_playing_late; [|exact E3]. reflexivity. }
    assert (HI4 : Inv s4) by (eapply step_inv; eauto). exfalso.
    assert (Hgo : forall evs' s5 s6, Inv s5 -> m_state s5 <> Ready /\ m_state s5 <> PreFlaging ->
       foldM call1 (map (fun '(e, p) => Step e p) evs') s5 = Ok s6 -> m_state s6 <> Ready).
    { induction evs' as [|[e p] evs' IH]; intros s5 s6 H5 [A B] E5; cbn [map foldM call1] in E5; [injection E5 as <-; auto|].
      apply bind_ok in E5 as (s7 & E7 & E5). apply bind_ok in E7 as ([s8 o8] & E7 & E8). injection E8 as <-.
      eapply IH; [| |exact E5]; [eapply step_inv; eauto|eapply early_ready; eauto]. }
    apply map_eq_app in Eq as (l1 & l2 & _ & <- & _). eapply Hgo; eauto.
Qed.
Print Assumptions C18_ce_bounded_no_preflag.
Example C18_example : exists s0 s,
  mb_new demo_board = Ok s0 /\
  exec s0 (map (fun '(e, p) => Step e p) ((e_lc, (0, 1)) :: (e_lr, (0, 1)) ::
    [(e_rc, (0, 2)); (e_rr, (0, 2)); (e_rc, (0, 1)); (e_lc, (0, 1)); (e_lr, (0, 1)); (e_rr, (0, 1))])%nat) = Ok s /\
  m_ce s = 3%nat /\ m_left s = 1%nat /\ m_right s = 1%nat /\ m_double s = 1%nat /\ m_state s = Win.
Proof. eexists. eexists. split; [vm_compute; reflexivity|]. split; [vm_compute; reflexivity|]. vm_compute. auto 10. Qed.
(** The full claim is false: flagging a mine before the first click and removing the flag leaves
    ce = 1 with no click counted. *)
Theorem C18_refuted_preflag : exists s,
  run demo_board [Step e_rc (0, 2)%nat; Step e_rr (0, 2)%nat; Step e_rc (0, 2)%nat] = Ok s /\
  m_ce s = 1%nat /\ m_left s = 0%nat /\ m_right s = 0%nat /\ m_double s = 0%nat /\ m_state s = Ready.
Proof. eexists. split; [vm_compute; reflexivity|]. vm_compute. auto 10. Qed.
Print Assumptions C18_refuted_preflag.

(** ** C19 *)
Lemma exec_J (up : Prop) cs : forall s s', Inv s -> J up s ->
  (up -> forall pre post s1, cs = pre ++ post -> exec s pre = Ok s1 ->
     forall q, zero_cell (m_row s1) (m_column s1) (m_board s1) q -> cell (m_gb s1) q <> 11) ->
  exec s cs = Ok s' -> J up s'.
Proof.
  unfold exec. induction cs as [|c cs IH]; intros s s' HI HJ Hnf E; [injection E as <-; auto|].
  cbn [foldM] in E. apply bind_ok in E as (s1 & E1 & E).
  assert (Hnf1 : up -> forall pre post s2, cs = pre ++ post -> foldM call1 pre s1 = Ok s2 ->
     forall q, zero_cell (m_row s2) (m_column s2) (m_board s2) q -> cell (m_gb s2) q <> 11).
  { intros Hu pre post s2 -> E2. apply (Hnf Hu (c :: pre) post s2); auto. cbn [foldM]. now rewrite E1. }
  destruct c as [e p|]; cbn [call1] in *.
  - apply bind_ok in E1 as ([s2 o] & E1 & E2). injection E2 as <-. cbn [fst] in *.
    eapply (IH s2); eauto; [eapply step_inv; eauto|]. eapply J_step; eauto.
    intros Hu. exact (Hnf Hu [] _ s eq_refl eq_refl).
  - injection E1 as <-. eapply (IH (mb_reset s)); eauto; [now apply reset_inv|]. apply J_fresh; auto. apply HI.
Qed.
Lemma new_J up row column b s0 : legal_board row column b -> (0 < row)%nat -> mb_new b = Ok s0 -> J up s0.
Proof.
  intros Hl Hr E0. destruct (new_inv Hl Hr E0) as (HI & Er & Ec & _).
  unfold mb_new in E0. apply bind_ok in E0 as (c & _ & E0). injection E0 as <-. apply J_fresh; auto. cbn in *. lia.
Qed.

(** the components of the open zero cells, plus the open island cells *)
Definition open_zero (s : mb) (q : pos) : Prop :=
  zero_cell (m_row s) (m_column s) (m_board s) q /\ cell (m_gb s) q < 10.

(** if no zero cell is ever flagged, bbbv_solved is exactly the number of openings that are open
    plus the number of open island cells; it never exceeds the 3BV and equals it at Win *)
Theorem C19_solved_bbbv_partial : forall row column b cs s s0,
  legal_board row column b -> (0 < row)%nat -> mb_new b = Ok s0 -> exec s0 cs = Ok s ->
  (forall pre post s1, cs = pre ++ post -> exec s0 pre = Ok s1 ->
     forall q, inb row column q -> cell (m_board s1) q = 0 -> cell (m_gb s1) q <> 11) ->
  (exists k, components (open_zero s) k /\
     m_solved s = (k + count (fun q => island_cellb row column (m_board s) q && (cell (m_gb s) q <? 10)%Z)
                             (positions row column))%nat) /\
  exists n, cal_bbbv (m_board s) = Ok n /\ (m_solved s <= n)%nat /\ (m_state s = Win -> m_solved s = n).
Proof.
  intros row column b cs s s0 Hl Hr E0 E Hnf. destruct (new_inv Hl Hr E0) as (HI0 & Er0 & Ec0 & _).
  assert (HJ : J True s).
  { eapply exec_J; eauto; [eapply new_J; eauto|]. intros _ pre post s1 Eq Ex q [Hq Hz].
    destruct (exec_board HI0 Ex) as (A & B & _). rewrite A, B, Er0, Ec0 in Hq. eapply Hnf; eauto. }
  pose proof (exec_inv HI0 E) as HI.
  destruct (exec_board HI0 E) as (Er & Ec & _). rewrite Er0 in Er. rewrite Ec0 in Ec.
  destruct HJ as (us & Es & Hlow & Hup). destruct (Hup I) as (Hnd & Huq & Hop & Hcls).
  unfold open_islands in Es. rewrite Er, Ec in Es.
  destruct (@cal_bbbv_ok row column (m_board s)) as (n & Hn & En).
  { rewrite <- Er, <- Ec. apply HI. } { exact Hr. }
  assert (Hcov : forall q, zero_cell (m_row s) (m_column s) (m_board s) q -> cell (m_gb s) q < 10 ->
            exists u, In u us /\ connected (zero_cell (m_row s) (m_column s) (m_board s)) u q).
  { intros q Hq Hlt. destruct (Hlow q Hq) as [?|(r & Hr' & Hge)]; auto.
    pose proof (Hcls q r Hr' Hlt). lia. }
  split.
  - exists (length us). split; auto. exists us. split; auto. split; auto. split; [|split].
    + apply Forall_forall. intros u Hu. destruct (Hop u Hu). split; auto.
    + intros q [Hq Hlt]. destruct (Hcov q Hq Hlt) as (u & Hu & Hc). exists u. split; auto.
      destruct (Hop u Hu) as [_ Hou]. clear - Hc Hou Hcls.
      induction Hc as [p Hp|p q r Hpq IH Hn Hr]; [constructor; split; auto|].
      apply conn_step with q; auto. split; auto. eapply Hcls; [|exact Hou]. eapply conn_step; eauto.
    + intros r1 r2 H1 H2 Hc. apply Huq; auto. eapply connected_mono; [|exact Hc]. intros x [? _]; auto.
  - eexists. split; [exact En|]. rewrite <- Er, <- Ec in Hn, Es |- *.
    destruct Hn as (reps & Hlen & Hrn & Hrf & Hrc & Hru).
    assert (Hle : (length us <= n)%nat).
    { rewrite <- Hlen. apply (@pigeon 1 Nat.lt_0_1 (connected (zero_cell (m_row s) (m_column s) (m_board s)))); auto.
      - intros u Hu. destruct (Hop u Hu) as [Hz _]. apply Hrc; auto.
      - intros p u1 u2 H1 H2 Hc1 Hc2. apply Huq; auto. eapply connected_trans; [apply connected_sym, Hc1|exact Hc2]. }
    split.
    + rewrite Es. pose proof (@count_mono _ (fun q => island_cellb (m_row s) (m_column s) (m_board s) q && (cell (m_gb s) q <? 10))
         (island_cellb (m_row s) (m_column s) (m_board s)) (positions (m_row s) (m_column s))) as Hm.
      specialize (Hm ltac:(intros x _ Hx; apply andb_true_iff in Hx; tauto)). revert Hm.
      generalize (count (fun q => island_cellb (m_row s) (m_column s) (m_board s) q && (cell (m_gb s) q <? 10)) (positions (m_row s) (m_column s))).
      generalize (count (island_cellb (m_row s) (m_column s) (m_board s)) (positions (m_row s) (m_column s))). intros; lia.
    + intros Hw. pose proof (i_win HI Hw) as Hall.
      assert (Hopen : forall q, zero_cell (m_row s) (m_column s) (m_board s) q -> cell (m_gb s) q < 10).
      { intros q [Hq Hz]. rewrite (Hall q Hq); lia. }
      assert (Hge : (n <= length us)%nat).
      { rewrite <- Hlen. apply (@pigeon 1 Nat.lt_0_1 (fun u r => connected (zero_cell (m_row s) (m_column s) (m_board s)) u r)); auto.
        - intros u Hu. rewrite Forall_forall in Hrf. apply Hcov; auto.
        - intros p u1 u2 H1 H2 Hc1 Hc2. apply Hru; auto. eapply connected_trans; [apply connected_sym, Hc1|exact Hc2]. }
      rewrite Es. assert (Ei : count (fun q => island_cellb (m_row s) (m_column s) (m_board s) q && (cell (m_gb s) q <? 10)) (positions (m_row s) (m_column s))
          = count (island_cellb (m_row s) (m_column s) (m_board s)) (positions (m_row s) (m_column s))).
      { apply count_ext. intros q Hq. apply in_positions in Hq. destruct (island_cellb _ _ _ q) eqn:Ei; auto. cbn [andb].
        apply island_cellb_iff in Ei as (_ & Hpos & _); auto. rewrite (Hall q Hq) by lia. apply Z.ltb_lt.
        pose proof (safe_range (i_legal HI) (i_row HI) Hq). lia. }
      rewrite Ei. generalize (count (island_cellb (m_row s) (m_column s) (m_board s)) (positions (m_row s) (m_column s))). intros; lia.
Qed.
Print Assumptions C19_solved_bbbv_partial.

(** for every history: a won game has solved at least the board's 3BV *)
Theorem C19_won_game_solved_at_least : forall row column b cs s,
  played row column b cs s -> m_state s = Win ->
  exists n, cal_bbbv (m_board s) = Ok n /\ (n <= m_solved s)%nat.
Proof.
  intros row column b cs s H Hw. destruct (played_inv H) as (HI & Er & Ec & _).
  destruct H as (Hl & Hr & s0 & E0 & E). destruct (new_inv Hl Hr E0) as (HI0 & _).
  assert (HJ : J False s) by (eapply exec_J; [exact HI0|eapply new_J; eauto|intros []|exact E]).
  destruct HJ as (us & Es & Hlow & _). unfold open_islands in Es.
  destruct (@cal_bbbv_ok (m_row s) (m_column s) (m_board s)) as (n & Hn & En); [apply HI|lia|].
  pose proof (i_win HI Hw) as Hall.
  eexists. split; [exact En|]. destruct Hn as (reps & Hlen & Hrn & Hrf & Hrc & Hru).
  assert (Hge : (n <= length us)%nat).
  { rewrite <- Hlen. apply (@pigeon 1 Nat.lt_0_1 (fun u r => connected (zero_cell (m_row s) (m_column s) (m_board s)) u r)); auto.
    - intros q Hq. rewrite Forall_forall in Hrf. destruct (Hlow q (Hrf q Hq)) as [?|(r & Hr' & Hlt)]; auto.
      exfalso. apply connected_r in Hr' as [Hrb Hz]. rewrite (Hall r Hrb) in Hlt; lia.
    - intros p u1 u2 H1 H2 Hc1 Hc2. apply Hru; auto. eapply connected_trans; [apply connected_sym, Hc1|exact Hc2]. }
  rewrite Es. assert (Ei : count (fun q => island_cellb (m_row s) (m_column s) (m_board s) q && (cell (m_gb s) q <? 10)) (positions (m_row s) (m_column s))
      = count (island_cellb (m_row s) (m_column s) (m_board s)) (positions (m_row s) (m_column s))).
  { apply count_ext. intros q Hq. apply in_positions in Hq. destruct (island_cellb _ _ _ q) eqn:Ei; auto. cbn [andb].
    apply island_cellb_iff in Ei as (_ & Hpos & _); auto. rewrite (Hall q Hq) by lia. apply Z.ltb_lt.
    pose proof (safe_range (i_legal HI) (i_row HI) Hq). lia. }
  rewrite Ei. generalize (count (island_cellb (m_row s) (m_column s) (m_board s)) (positions (m_row s) (m_column s))). intros; lia.
Qed.
Print Assumptions C19_won_game_solved_at_least.
Example C19_example : exists s0 s, mb_new demo_board = Ok s0 /\
  exec s0 [Step e_lc (0, 1); Step e_lr (0, 1); Step e_lc (2, 0); Step e_lr (2, 0)]%nat = Ok s /\
  m_state s = Win /\ m_solved s = 1%nat /\ cal_bbbv demo_board = Ok 1%nat.
Proof. eexists. eexists. split; [vm_compute; reflexivity|]. split; [vm_compute; reflexivity|]. vm_compute. auto. Qed.
(** The full claim is false when zero cells are flagged: 3BV 1, solved 2 in a won game. *)
Theorem C19_refuted_flagged_zero : exists s,
  legal_board 1 3 [[0; 0; 0]] /\
  run [[0; 0; 0]] [Step e_rc (0, 0); Step e_rr (0, 0); Step e_rc (0, 2); Step e_rr (0, 2);
                   Step e_lc (0, 1); Step e_lr (0, 1);
                   Step e_rc (0, 0); Step e_rr (0, 0); Step e_rc (0, 2); Step e_rr (0, 2);
                   Step e_lc (0, 0); Step e_lr (0, 0); Step e_lc (0, 2); Step e_lr (0, 2)]%nat = Ok s /\
  m_state s = Win /\ m_solved s = 2%nat /\ cal_bbbv [[0; 0; 0]] = Ok 1%nat.
Proof.
  eexists. split.
  { split; [split; [reflexivity|repeat constructor]|]. intros [i j] [Hi Hj]; cbn [fst snd] in *.
    assert (Hi' : (i = 0)%nat) by lia. assert (Hj' : (j = 0 \/ j = 1 \/ j = 2)%nat) by lia. subst i.
    destruct Hj' as [->|[->| ->]]; vm_compute; auto. }
  split; [vm_compute; reflexivity|]. vm_compute. auto.
Qed.
Print Assumptions C19_refuted_flagged_zero.
