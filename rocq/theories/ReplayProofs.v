(** * ReplayProofs: lemmas on single events of the state machine, used to compare a game as it was
    played with its replay (PropsReplay.v). *)
From Verif Require Import Base Spec BaseFacts LayMine LayMineProofs Metrics Refresh MineBoard
  OpProofs MineBoardProofs MineBoardFrame.
Open Scope Z_scope.

(** ** An event that is refused changes nothing *)
Lemma chord_at_some s p s' o : Inv s -> live (m_state s) -> chord_at s p = Ok (s', o) -> o <> None.
Proof.
  intros HI Hl. unfold chord_at, ret. destruct (at_corner s p).
  - intros E; injection E as <- <-; discriminate.
  - intros E. eapply chord_any in E; eauto. tauto.
Qed.
Lemma chord_at_right_some s p s' o : Inv s -> live (m_state s) -> chord_at_right s p = Ok (s', o) -> o <> None.
Proof.
  intros HI Hl E. unfold chord_at_right in E. apply bind_ok in E as (r & _ & E).
  eapply chord_at_some; [| |exact E]; [exact HI|exact Hl].
Qed.
Lemma left_at_some s p s' o : Inv s -> m_state s = Playing -> left_at s p = Ok (s', o) -> o <> None.
Proof.
  intros HI Hl. unfold left_at, ret. destruct (at_corner s p).
  - intros E; injection E as <- <-; discriminate.
  - intros E. eapply left_any in E; eauto. tauto.
Qed.
(** [right_click] refuses only a cell that shows neither a number nor 10 nor 11. *)
Lemma right_some s x y s' o : Inv s -> live (m_state s) -> right_click s x y = Ok (s', o) -> o <> None.
Proof.
  intros HI Hlv E. destruct (inv_live HI Hlv) as (Hleg & Hrow & Hrect & Hgood & Hptr).
  destruct (inb_dec (m_row s) (m_column s) (x, y)) as [Hp|Hp].
  2:{ exfalso. unfold right_click in E. cbn [m_gb w_right] in E. rewrite (get_out Hrect Hp) in E. discriminate. }
  destruct (@right_click_ok s Hleg Hrow Hrect Hgood x y Hp (i_flag HI Hlv)) as (s1 & o1 & E1 & Hr).
  rewrite E in E1. injection E1 as <- ->. discriminate.
Qed.
Lemma right_none_cell s x y s' : right_click s x y = Ok (s', None) ->
  exists w, get (m_gb s) x y = Ok w /\ 11 < w.
Proof.
  unfold right_click. cbn [m_gb m_board w_right]. intros E. apply bind_ok in E as (w & Ew & E). exists w. split; auto.
  destruct (Z.ltb_spec w 10); [discriminate|]. apply bind_ok in E as (v & _ & E).
  destruct (Z.eqb_spec w 10).
  { destruct (negb (v =? -1)); apply bind_ok in E as (g & _ & E); discriminate. }
  destruct (Z.eqb_spec w 11); [|lia].
  destruct (negb (v =? -1)); apply bind_ok in E as (g & _ & E); apply bind_ok in E as (f & _ & E); discriminate.
Qed.
Lemma right_none_early s t x y s' : Inv s -> m_state s = Ready \/ m_state s = PreFlaging -> m_gb t = m_gb s ->
  right_click t x y = Ok (s', None) -> False.
Proof.
  intros HI Hst Hg E. apply right_none_cell in E as (w & Ew & Hw). rewrite Hg in Ew.
  destruct (get_inv 0 (i_rect HI) Ew) as [Hp Hw2]. change (gcell 0) with cell in Hw2.
  destruct (i_pre HI Hst Hp); lia.
Qed.
Ltac none_ret E := (unfold ret, fail in E; injection E as <- ; try discriminate; reflexivity).
Lemma step_playing_none s e p s' : Inv s -> m_state s = Playing \/
    (m_state s = PreFlaging \/ m_state s = Ready) /\ (In e [e_lc; e_rr; e_mv; e_rc] \/ (e = e_lr /\ m_mouse s <> DownUp)) ->
  step_playing s e p = Ok (s', None) -> s' = s.
Proof.
  intros HI Hst E.
  assert (Hlv : live (m_state s)) by (unfold live; tauto).
  destruct e; cbn [step_playing] in E; try none_ret E; try (discriminate E);
    try (match type of E with match m_mouse s with _ => _ end = _ => idtac end; destruct (m_mouse s) eqn:Em;
         try none_ret E; try (discriminate E);
         try (eapply chord_at_some in E; [congruence|exact HI|exact Hlv]);
         try (eapply chord_at_right_some in E; [congruence|exact HI|exact Hlv])).
  - eapply left_at_some in E; [congruence|exact HI|]. cbn [m_state w_mouse]. cbn in Hst. intuition congruence.
  - destruct (in_board s p); [|discriminate E]. apply bind_ok in E as (w & _ & E).
    eapply right_some in E; [congruence|exact HI|exact Hlv].
  - eapply chord_any in E; [destruct E as (_ & _ & _ & E & _); congruence|exact HI|exact Hlv].
  - eapply left_at_some in E; [congruence|exact HI|]. cbn [m_state w_mouse]. cbn in Hst. intuition congruence.
  - apply bind_ok in E as (w & _ & E). eapply right_some in E; [congruence|exact HI|exact Hlv].
  - destruct (negb (m_mid _)); [|discriminate E].
    eapply chord_any in E; [destruct E as (_ & _ & _ & E & _); congruence|exact HI|exact Hlv].
Qed.

Lemma step_none s e p s' : Inv s -> step s e p = Ok (s', None) -> s' = s.
Proof.
  intros HI E. unfold step in E. destruct (m_state s) eqn:Hst.
  - (* Ready *)
    assert (Hright : forall w n, (1 <= n)%nat ->
       right_click (w_state (w_preflag (w_mouse s w) n) PreFlaging) (fst p) (snd p) = Ok (s', None) -> False).
    { intros w n Hn E'. eapply right_some in E'; [congruence|apply preflag_inv; [exact HI|exact Hst]|right; left; reflexivity]. }
    destruct e; cbn [step_ready] in E; try none_ret E; try (discriminate E);
      try (match type of E with match m_mouse s with _ => _ end = _ => idtac end; destruct (m_mouse s);
         try none_ret E; try (discriminate E)).
    + destruct (in_board _ p); [|discriminate E]. exfalso. eapply Hright; [|exact E]. lia.
    + apply bind_ok in E as (w & _ & E). destruct (w =? 10); [|discriminate]. exfalso.
      eapply right_some in E; [congruence|apply preflag_inv; [exact HI|exact Hst]|right; left; reflexivity].
  - (* PreFlaging *)
    assert (Hlv : live (m_state s)) by (rewrite Hst; unfold live; auto).
    destruct e; cbn [step_preflag] in E; try none_ret E; try (discriminate E);
      try (eapply step_playing_none in E; [exact E|exact HI|right; split; [auto|cbn; tauto]]);
      try (match type of E with match m_mouse s with _ => _ end = _ => idtac end; destruct (m_mouse s) eqn:Em;
         try none_ret E; try (discriminate E)).
    all: try (eapply step_playing_none in E; [exact E|exact HI|right; split; [auto|right; split; [auto|rewrite Em; discriminate]]]).
    + destruct (at_corner s p); [discriminate E|]. apply bind_ok in E as (w & _ & E). exfalso. destruct (w =? 10).
      * cbn [step_playing w_state m_mouse] in E. rewrite Em in E.
        eapply left_at_some in E; [congruence|exact (play_inv HI Hst)|reflexivity].
      * cbn in E. discriminate E.
    + destruct (in_board _ p).
      2:{ cbn in E. discriminate E. }
      apply bind_ok in E as (w & Ew & E). exfalso. destruct (w =? 10).
      * eapply (@right_none_early s); [exact HI|auto| |exact E]. reflexivity.
      * apply bind_ok in E as (n & _ & E). destruct (n =? 0)%nat.
        -- apply bind_ok in E as (g & _ & E). discriminate E.
        -- eapply (@right_none_early s); [exact HI|auto| |exact E]. reflexivity.
    + exfalso. destruct (in_board _ p && _); cbn in E; discriminate E.
    + exfalso. apply bind_ok in E as (w & Ew & E). destruct (w =? 10) eqn:E10; [|discriminate].
      eapply (@right_none_early s); [exact HI|auto| |exact E]. reflexivity.
  - eapply step_playing_none in E; [exact E|exact HI|auto].
  - discriminate E. - discriminate E. - discriminate E.
Qed.

(** ** Before the game *)

(** The state machine of a board of [row] x [column] cells on which nothing has happened, with the
    mouse buttons in the state [w]. *)
Definition blank (b : board) (row column : nat) (w : mouse_state) : mb :=
  MB b (mkboard row column 10) [] 0 0 0 0 0 0 row column w Ready 0 0 0 false.

Lemma mv_noop s p : live (m_state s) -> step s e_mv p = Ok (s, Some 0%nat).
Proof. unfold step. intros [H|[H|H]]; rewrite H; reflexivity. Qed.

(** An event in the Ready state: either it only changes the mouse state, or it starts the recording,
    inside the board. *)
Lemma step_ready_cases s e p s' a : Inv s -> m_state s = Ready -> step s e p = Ok (s', Some a) ->
  (exists w, s' = w_mouse s w) \/
  (m_state s' = PreFlaging /\ inb (m_row s) (m_column s) p /\ (m_mouse s = UpUp \/ e = e_pf)).
Proof.
  intros HI Hst E. unfold step in E. rewrite Hst in E.
  assert (Hs : s = w_mouse s (m_mouse s)) by (now destruct s).
  assert (Hright : forall t, m_state t = PreFlaging -> m_gb t = m_gb s -> m_row t = m_row s ->
    m_column t = m_column s -> m_board t = m_board s -> m_flag t = m_flag s ->
    right_click t (fst p) (snd p) = Ok (s', Some a) -> m_state s' = PreFlaging /\ inb (m_row s) (m_column s) p).
  { intros t Ht Hg Hr Hc Hb Hf E'.
    assert (Hp : inb (m_row s) (m_column s) (fst p, snd p)).
    { destruct (inb_dec (m_row s) (m_column s) (fst p, snd p)) as [Hp|Hp]; auto. exfalso.
      unfold right_click in E'. cbn [m_gb w_right] in E'. rewrite Hg, (get_out (i_rect HI) Hp) in E'. discriminate. }
    destruct (inv_live HI) as (Hleg & Hrow & Hrect & Hgood & Hptr); [rewrite Hst; unfold live; auto|].
    destruct (@right_click_ok t) with (x := fst p) (y := snd p) as (s1 & o1 & E1 & Hrr).
    all: try (rewrite ?Hb, ?Hr, ?Hc, ?Hg; auto; fail).
    { rewrite Hf, Hr, Hc, Hg. apply (i_flag HI). rewrite Hst. unfold live; auto. }
    rewrite E' in E1. injection E1 as <- _. apply right_frame in Hrr. destruct Hrr as (_ & _ & _ & -> & _).
    split; auto. }
  destruct e; cbn [step_ready] in E; try discriminate E;
    try (match type of E with match m_mouse s with _ => _ end = _ => idtac end; destruct (m_mouse s);
         try discriminate E);
    try (unfold ret in E; injection E as <- <-; left; eexists; first [reflexivity|exact Hs]).
  - destruct (in_board _ p) eqn:Eb; unfold ret in E; injection E as <- <-; [right|left; eexists; reflexivity].
    split; [reflexivity|]. split; [|auto]. apply in_board_iff in Eb. exact Eb.
  - destruct (in_board _ p) eqn:Eb; [|unfold ret in E; injection E as <- <-; left; eexists; reflexivity].
    right. apply Hright in E; try reflexivity. tauto.
  - apply bind_ok in E as (w & _ & E). destruct (w =? 10); [|discriminate].
    right. apply Hright in E; try reflexivity. tauto.
Qed.

(** What holds besides [Inv] before the first cell is opened. *)
Definition Early (s : mb) : Prop :=
  m_state s = Ready \/ m_state s = PreFlaging ->
  m_left s = 0%nat /\ m_solved s = 0%nat /\ m_px s = 0%nat /\ m_py s = 0%nat /\ m_mid s = false /\
  (m_preflag s = 0%nat -> m_right s = 0%nat /\ m_flaged s = []) /\
  (m_state s = Ready -> m_preflag s = 0%nat).
Lemma early_blank b row column w : Early (blank b row column w).
Proof. intros _. cbn. auto 10. Qed.
Lemma early_not s : m_state s <> Ready -> m_state s <> PreFlaging -> Early s.
Proof. intros H1 H2 [H|H]; contradiction. Qed.

Lemma blank_of s : Inv s -> Early s -> m_state s = Ready -> m_ce s = 0%nat -> m_double s = 0%nat ->
  s = blank (m_board s) (m_row s) (m_column s) (m_mouse s).
Proof.
  intros HI HE Hst Hce Hd. destruct (HE (or_introl Hst)) as (E1 & E2 & E3 & E4 & E5 & E6 & E7).
  specialize (E7 Hst). destruct (E6 E7) as [E8 E9].
  pose proof (i_ready HI Hst) as Hn.
  assert (Hf : m_flag s = 0%nat) by (rewrite (i_flag HI); [auto|rewrite Hst; unfold live; auto]).
  assert (Hg : m_gb s = mkboard (m_row s) (m_column s) 10).
  { apply (board_ext (i_rect HI) (rect_mkboard _ _ _)). intros q Hq. rewrite cell_mkboard by auto.
    destruct (i_pre HI (or_introl Hst) Hq) as [H|H]; auto. exfalso. now apply (nflags_zero Hn Hq). }
  destruct s; cbn in *. subst. unfold blank. reflexivity.
Qed.

Lemma right_early s x y s' o : m_state s = PreFlaging -> right_result s x y s' o -> (0 < m_preflag s)%nat ->
  m_left s = 0%nat -> m_solved s = 0%nat -> m_px s = 0%nat -> m_py s = 0%nat -> m_mid s = false -> Early s'.
Proof.
  intros Hst Hr Hp H1 H2 H3 H4 H5 _.
  destruct Hr; cbn; (do 5 (split; [assumption|])); (split; [lia|rewrite Hst; discriminate]).
Qed.
Lemma right_early2 s t x y s' o : Inv s -> m_state s = Ready \/ m_state s = PreFlaging ->
  m_row t = m_row s -> m_column t = m_column s -> m_board t = m_board s -> m_gb t = m_gb s -> m_flag t = m_flag s ->
  m_state t = PreFlaging -> (0 < m_preflag t)%nat ->
  m_left t = 0%nat -> m_solved t = 0%nat -> m_px t = 0%nat -> m_py t = 0%nat -> m_mid t = false ->
  right_click t x y = Ok (s', o) -> Early s'.
Proof.
  intros HI Hst Hr Hc Hb Hg Hf Ht Hp H1 H2 H3 H4 H5 E.
  assert (Hq : inb (m_row s) (m_column s) (x, y)).
  { destruct (inb_dec (m_row s) (m_column s) (x, y)) as [Hq|Hq]; auto. exfalso.
    unfold right_click in E. cbn [m_gb w_right] in E. rewrite Hg, (get_out (i_rect HI) Hq) in E. discriminate. }
  assert (Hlv : live (m_state s)) by (unfold live; tauto).
  destruct (inv_live HI Hlv) as (Hleg & Hrow & Hrect & Hgood & Hptr).
  destruct (@right_click_ok t) with (x := x) (y := y) as (s1 & o1 & E1 & Hrr).
  all: try (rewrite ?Hb, ?Hr, ?Hc, ?Hg; auto; fail).
  { rewrite Hf, Hr, Hc, Hg. apply (i_flag HI Hlv). }
  rewrite E in E1. injection E1 as <- _. eapply right_early; [| exact Hrr|..]; auto.
Qed.
Lemma mouse_early s w : Early s -> Early (w_mouse s w).
Proof. intros H. exact H. Qed.
Lemma chord_at_early s p s' o : Inv s -> m_state s = PreFlaging \/ m_state s = Ready -> Early s ->
  chord_at s p = Ok (s', o) -> Early s'.
Proof.
  intros HI Hst HE. assert (Hlv : live (m_state s)) by (unfold live; tauto).
  unfold chord_at, ret. destruct (at_corner s p).
  - intros E; injection E as <- <-; exact HE.
  - intros E. eapply chord_any in E; eauto. destruct E as (_ & _ & _ & _ & E).
    rewrite E; [exact HE|destruct Hst as [H|H]; rewrite H; discriminate].
Qed.
Lemma chord_at_right_early s p s' o : Inv s -> m_state s = PreFlaging \/ m_state s = Ready -> Early s ->
  chord_at_right s p = Ok (s', o) -> Early s'.
Proof.
  intros HI Hst HE E. unfold chord_at_right in E. apply bind_ok in E as (r & Er & E).
  eapply chord_at_early; [| | |exact E]; [exact HI|exact Hst|].
  unfold usub in Er. destruct (Nat.leb_spec 1 (m_right s)); [|discriminate].
  intros Hs. cbn in *. destruct (HE Hs) as (E1 & E2 & E3 & E4 & E5 & E6 & E7). do 5 (split; [assumption|]).
  split; [|assumption]. intros H0. destruct (E6 H0). lia.
Qed.
Ltac early_ret E HE := (unfold ret, fail in E; injection E as <- <-; exact HE).
Lemma fall_early s e p s' o : Inv s -> m_state s = PreFlaging \/ m_state s = Ready -> Early s ->
  (e = e_lc \/ e = e_mv \/ e = e_rr \/ (e = e_rc /\ m_mouse s <> UpUp) \/ (e = e_lr /\ m_mouse s <> DownUp)) ->
  step_playing s e p = Ok (s', o) -> Early s'.
Proof.
  intros HI Hst HE He E.
  destruct He as [->|[->|[->|[[-> Hm]|[-> Hm]]]]]; cbn [step_playing] in E;
   try (early_ret E HE);
   try (match type of E with match m_mouse s with _ => _ end = _ => idtac end; destruct (m_mouse s); try (early_ret E HE); try congruence;
         try (eapply chord_at_early; [| | |exact E]; [exact HI|exact Hst|exact HE]);
         try (eapply chord_at_right_early; [| | |exact E]; [exact HI|exact Hst|exact HE])).
Qed.

Lemma early_step s e p s' o : Inv s -> Early s -> step s e p = Ok (s', o) -> Early s'.
Proof.
  intros HI HE E. unfold step in E. destruct (m_state s) eqn:Hst.
  - (* Ready *)
    destruct (HE (or_introl Hst)) as (E1 & E2 & E3 & E4 & E5 & E6 & E7).
    destruct e; cbn [step_ready] in E; try (early_ret E HE);
      try (match type of E with match m_mouse s with _ => _ end = _ => idtac end; destruct (m_mouse s);
         try (early_ret E HE)).
    + destruct (in_board _ p); [|early_ret E HE]. unfold ret in E; injection E as <- <-.
      intros _. cbn. do 5 (split; [assumption|]). split; [assumption|discriminate].
    + destruct (in_board _ p); [|early_ret E HE].
      eapply right_early2; [exact HI|auto|..|exact E]; auto.
    + apply bind_ok in E as (w & _ & E). destruct (w =? 10); [|discriminate].
      eapply right_early2; [exact HI|auto|..|exact E]; auto. cbn. lia.
  - (* PreFlaging *)
    destruct (HE (or_intror Hst)) as (E1 & E2 & E3 & E4 & E5 & E6 & E7).
    assert (Hclear : forall w g, Early (w_gb (clear_click_num (w_state (w_preflag (w_mouse s w) 0) Ready)) g)).
    { intros w g _. cbn. auto 10. }
    assert (Hback : forall w, m_preflag s = 0%nat -> Early (w_state (w_mouse s w) Ready)).
    { intros w H0 _. cbn. do 5 (split; [assumption|]). auto. }
    destruct e; cbn [step_preflag] in E; try (early_ret E HE);
      try (eapply fall_early in E; [exact E|exact HI|auto|exact HE|tauto]);
      try (match type of E with match m_mouse s with _ => _ end = _ => idtac end; destruct (m_mouse s) eqn:Em; try (early_ret E HE)).
    all: try (eapply fall_early in E; [exact E|exact HI|auto|exact HE|rewrite Em; right; right; right; right; split; [auto|discriminate]]).
    + destruct (at_corner s p).
      * unfold ret in E. injection E as <- <-. cbn [m_preflag w_mouse]. destruct (Nat.eqb_spec (m_preflag s) 0) as [E0|E0]; [|exact HE].
        intros _. cbn. auto 10.
      * apply bind_ok in E as (w & _ & E). destruct (w =? 10).
        -- eapply step_playing_late in E; [|reflexivity]. destruct E. now apply early_not.
        -- eapply fall_early in E; [exact E|exact HI|left; exact Hst|exact HE|]. right; right; right; right. split; auto. discriminate.
    + destruct (in_board _ p).
      2:{ eapply fall_early in E; [exact E|exact HI|left; exact Hst|exact HE|]. right; right; right; left. split; auto. discriminate. }
      apply bind_ok in E as (w & Ew & E). destruct (w =? 10).
      * eapply right_early2; [exact HI|auto|..|exact E]; auto. cbn. lia.
      * apply bind_ok in E as (n & Eu & E). destruct (Nat.eqb_spec n 0) as [->|E0].
        -- apply bind_ok in E as (g' & Es & E). unfold ret in E. injection E as <- <-. apply Hclear.
        -- eapply right_early2; [exact HI|auto|..|exact E]; auto. cbn. lia.
    + cbn [m_preflag w_mouse] in E. destruct (in_board _ p && (m_preflag s =? 0)%nat) eqn:Eb.
      * apply andb_true_iff in Eb as [_ E0]. apply Nat.eqb_eq in E0. cbn in E. unfold ret in E. injection E as <- <-. now apply Hback.
      * cbn in E. unfold ret in E. injection E as <- <-. exact HE.
    + unfold ret in E. injection E as <- <-. destruct (in_board _ p && (m_preflag s =? 0)%nat) eqn:Eb; [|exact HE].
      apply andb_true_iff in Eb as [_ E0]. apply Nat.eqb_eq in E0. exact (Hback _ E0).
    + apply bind_ok in E as (w & Ew & E). destruct (w =? 10) eqn:E10; [|discriminate].
      eapply right_early2; [exact HI|auto|..|exact E]; auto. cbn. lia.
  - eapply step_playing_late in E; [|exact Hst]. destruct E. now apply early_not.
  - early_ret E HE. - early_ret E HE. - early_ret E HE.
Qed.

(** ** Pressing the left button and moving do not look at the board *)
Definition w_board (s : mb) (b : board) : mb :=
  MB b (m_gb s) (m_flaged s) (m_left s) (m_right s) (m_double s) (m_ce s) (m_flag s) (m_solved s)
     (m_row s) (m_column s) (m_mouse s) (m_state s) (m_px s) (m_py s) (m_preflag s) (m_mid s).
Lemma step_any_board s e p s' o b : e = e_mv \/ e = e_lc -> step s e p = Ok (s', o) ->
  step (w_board s b) e p = Ok (w_board s' b, o).
Proof.
  intros [->| ->] E; unfold step in *; cbn [w_board m_state]; destruct (m_state s); cbn in *;
    try (unfold ret in *; injection E as <- <-; reflexivity);
    destruct (m_mouse s); unfold in_board in *; cbn in *; unfold ret, fail in *;
    try (injection E as <- <-; reflexivity);
    destruct (_ && _); injection E as <- <-; reflexivity.
Qed.

(** ** How useful an event before the game is *)
Lemma chord_pre_zero s x y s' o : Inv s -> m_state s = PreFlaging \/ m_state s = Ready ->
  chording_click s x y = Ok (s', o) -> o = Some 0%nat /\ m_state s' = m_state s.
Proof.
  intros HI Hst E. unfold chording_click in E. cbn [m_gb w_double] in E. apply bind_ok in E as (w & Ew & E).
  destruct (get_inv 0 (i_rect HI) Ew) as [Hp Hw]. change (gcell 0) with cell in Hw.
  assert (H8 : (8 <=? w) = true) by (destruct (i_pre HI ltac:(tauto) Hp); lia).
  rewrite H8, orb_true_r in E. now injection E as <- <-.
Qed.
Definition quiet (s' : mb) (a : nat) : Prop :=
  ((m_state s' = PreFlaging \/ m_state s' = Ready) /\ (a <= 1)%nat).
Lemma chord_at_quiet s p s' a : Inv s -> m_state s = PreFlaging \/ m_state s = Ready ->
  chord_at s p = Ok (s', Some a) -> quiet s' a.
Proof.
  intros HI Hst. unfold chord_at, ret, quiet. destruct (at_corner s p).
  - intros E; injection E as <- <-. split; [exact Hst|lia].
  - intros E. eapply chord_pre_zero in E; eauto. destruct E as [E1 E2]. injection E1 as ->. rewrite E2. split; [exact Hst|lia].
Qed.
Lemma fall_quiet s e p s' a : Inv s -> m_state s = PreFlaging \/ m_state s = Ready ->
  (e = e_lc \/ e = e_mv \/ e = e_rr \/ (e = e_rc /\ m_mouse s <> UpUp) \/ (e = e_lr /\ m_mouse s <> DownUp)) ->
  step_playing s e p = Ok (s', Some a) -> quiet s' a.
Proof.
  intros HI Hst He E.
  destruct He as [->|[->|[->|[[-> Hm]|[-> Hm]]]]]; cbn [step_playing] in E;
   try (unfold ret in E; injection E as <- <-; split; [exact Hst|lia]);
   try (match type of E with match m_mouse s with _ => _ end = _ => idtac end; destruct (m_mouse s);
        try (unfold ret in E; injection E as <- <-; split; [exact Hst|lia]); try congruence;
        try (eapply chord_at_quiet; [| |exact E]; [exact HI|exact Hst]);
        try (unfold chord_at_right in E; apply bind_ok in E as (r & _ & E);
             eapply chord_at_quiet; [| |exact E]; [exact HI|exact Hst])).
Qed.
Lemma right_quiet s t x y s' a : Inv s -> m_state s = Ready \/ m_state s = PreFlaging ->
  m_row t = m_row s -> m_column t = m_column s -> m_board t = m_board s -> m_gb t = m_gb s -> m_flag t = m_flag s ->
  m_state t = PreFlaging -> right_click t x y = Ok (s', Some a) -> quiet s' a.
Proof.
  intros HI Hst Hr Hc Hb Hg Hf Ht E.
  assert (Hq : inb (m_row s) (m_column s) (x, y)).
  { destruct (inb_dec (m_row s) (m_column s) (x, y)) as [Hq|Hq]; auto. exfalso.
    unfold right_click in E. cbn [m_gb w_right] in E. rewrite Hg, (get_out (i_rect HI) Hq) in E. discriminate. }
  assert (Hlv : live (m_state s)) by (unfold live; tauto).
  destruct (inv_live HI Hlv) as (Hleg & Hrow & Hrect & Hgood & Hptr).
  destruct (@right_click_ok t) with (x := x) (y := y) as (s1 & o1 & E1 & Hrr).
  all: try (rewrite ?Hb, ?Hr, ?Hc, ?Hg; auto; fail).
  { rewrite Hf, Hr, Hc, Hg. apply (i_flag HI Hlv). }
  rewrite E in E1. injection E1 as <- <-. unfold quiet.
  destruct Hrr; cbn; (split; [auto|lia]).
Qed.

Lemma pre_step_useful s e p s' a : Inv s -> m_state s = Ready \/ m_state s = PreFlaging ->
  step s e p = Ok (s', Some a) ->
  quiet s' a \/ ((m_state s' = Playing \/ m_state s' = Win) /\ a = 2%nat /\ m_state s = PreFlaging) \/
  (m_state s' = Loss /\ a = 0%nat /\ m_state s = PreFlaging).
Proof.
  intros HI [Hst|Hst] E; unfold step in E; rewrite Hst in E.
  - left. destruct e; cbn [step_ready] in E; try discriminate E;
      try (match type of E with match m_mouse s with _ => _ end = _ => idtac end; destruct (m_mouse s); try discriminate E);
      try (unfold ret in E; injection E as <- <-; split; [right; exact Hst|lia]).
    + destruct (in_board _ p); unfold ret in E; injection E as <- <-; (split; [auto|lia]).
    + destruct (in_board _ p); [|unfold ret in E; injection E as <- <-; split; [auto|lia]].
      eapply (@right_quiet s); [exact HI|auto|..|exact E]; reflexivity.
    + apply bind_ok in E as (w & _ & E). destruct (w =? 10); [|discriminate].
      eapply (@right_quiet s); [exact HI|auto|..|exact E]; reflexivity.
  - destruct e; cbn [step_preflag] in E; try (discriminate E);
      try (left; eapply fall_quiet in E; [exact E|exact HI|auto|tauto]);
      try (match type of E with match m_mouse s with _ => _ end = _ => idtac end; destruct (m_mouse s) eqn:Em; try discriminate E);
      try (unfold ret in E; injection E as <- <-; left; split; [left; exact Hst|lia]).
    all: try (left; eapply fall_quiet in E; [exact E|exact HI|auto|rewrite Em; right; right; right; right; split; [auto|discriminate]]).
    + destruct (at_corner s p) eqn:Ec.
      { unfold ret in E. injection E as <- <-. left. split; [|lia]. destruct (_ =? 0)%nat; cbn; auto. }
      apply bind_ok in E as (w & Ew & E). destruct (Z.eqb_spec w 10) as [->|Hw].
      * right. destruct (get_inv 0 (i_rect HI) Ew) as [Hp Hw]. change (gcell 0) with cell in Hw.
        cbn [step_playing w_state m_mouse] in E. rewrite Em in E. unfold left_at in E.
        replace (at_corner (w_mouse (w_state s Playing) UpUp) p) with (at_corner s p) in E by reflexivity.
        rewrite Ec in E.
        eapply left_any in E; [|exact (play_inv HI Hst)|reflexivity].
        destruct E as (_ & _ & Hr & _). cbn [m_row m_column m_gb m_board w_mouse w_state] in Hr.
        inversion Hr as [Hn|g' Hn Hb Er|g' k s2 Hn Hb Er Hk1 Hk2 Ew2]; subst.
        -- exfalso. apply Hn. first [exact Hw|symmetry; exact Hw].
        -- right. cbn. auto.
        -- left. split; [|auto]. unfold check_win in Ew2. apply bind_ok in Ew2 as ([s3 w] & E3 & Ew2). injection Ew2 as <-.
           destruct w; [now right|]. left. unfold is_win in E3. apply bind_ok in E3 as (r & _ & E3).
           destruct r as [[[i j]|]|]; injection E3; intros; subst; reflexivity.
      * left. eapply fall_quiet in E; [exact E|exact HI|left; exact Hst|]. right; right; right; right. split; auto. discriminate.
    + left. destruct (in_board _ p).
      2:{ eapply fall_quiet in E; [exact E|exact HI|left; exact Hst|]. right; right; right; left. split; auto. discriminate. }
      apply bind_ok in E as (w & Ew & E). destruct (w =? 10).
      * eapply (@right_quiet s); [exact HI|auto|..|exact E]; reflexivity.
      * apply bind_ok in E as (n & Eu & E). destruct (Nat.eqb_spec n 0) as [->|E0].
        -- apply bind_ok in E as (g' & Es & E). unfold ret in E. injection E as <- <-. split; [right; reflexivity|lia].
        -- eapply (@right_quiet s); [exact HI|auto|..|exact E]; auto.
    + left. destruct (in_board _ p && _); cbn in E; unfold ret in E; injection E as <- <-; (split; [cbn; auto|lia]).
    + left. unfold ret in E. injection E as <- <-. destruct (in_board _ p && _); (split; [cbn; auto|lia]).
    + left. apply bind_ok in E as (w & Ew & E). destruct (w =? 10) eqn:E10; [|discriminate].
      eapply (@right_quiet s); [exact HI|auto|..|exact E]; auto.
Qed.
