(** * GameStats: one event is at most one click; click counters and solved 3BV. *)
From Verif Require Import Base Spec BaseFacts LayMine LayMineProofs Metrics MetricsProofs
  Refresh RefreshProofs BBBVProofs MineBoard OpProofs MineBoardProofs MineBoardFrame.
Open Scope Z_scope.

Definition nf (s : mb) : nat := if notflag (m_mouse s) then 1%nat else 0%nat.

(** same board, view and statistics *)
Record core (s s1 : mb) : Prop := {
  c_board : m_board s1 = m_board s; c_gb : m_gb s1 = m_gb s; c_flaged : m_flaged s1 = m_flaged s;
  c_left : m_left s1 = m_left s; c_double : m_double s1 = m_double s; c_ce : m_ce s1 = m_ce s;
  c_flag : m_flag s1 = m_flag s; c_solved : m_solved s1 = m_solved s; c_row : m_row s1 = m_row s;
  c_column : m_column s1 = m_column s; c_px : m_px s1 = m_px s; c_py : m_py s1 = m_py s
}.
Lemma core_refl s : core s s. Proof. constructor; reflexivity. Qed.

(** [right] may be reclassified: it drops by one only if the mouse state pays for it *)
Record quiet (ok : Prop) (s s1 : mb) : Prop := {
  q_core : core s s1;
  q_right : (m_right s1 <= m_right s <= S (m_right s1))%nat;
  q_nf : ok -> (m_right s + nf s1 <= m_right s1 + nf s)%nat;
  q_play : m_state s = Playing -> m_state s1 = Playing;
  q_win : m_state s1 = Win -> m_state s = Win
}.

Inductive step_kind (s : mb) (e : event) (p : pos) (s' : mb) : Prop :=
| SK_quiet : quiet (fine_pos (m_row s) (m_column s) e p) s s' -> step_kind s e p s'
| SK_clear : m_state s = PreFlaging -> m_state s' = Ready ->
    m_row s' = m_row s -> m_column s' = m_column s -> m_board s' = m_board s ->
    m_ce s' = m_ce s -> m_solved s' = m_solved s -> nf s' = 0%nat ->
    (m_gb s' = m_gb s \/ (inb (m_row s) (m_column s) p /\ cell (m_gb s) p = 11 /\ m_gb s' = upd (m_gb s) p 10)) ->
    step_kind s e p s'
| SK_left s1 o : quiet True s s1 -> live (m_state s) -> m_state s1 = Playing -> nf s1 = 0%nat ->
    inb (m_row s) (m_column s) p -> left_result s1 (fst p) (snd p) s' o -> step_kind s e p s'
| SK_right s1 o : core s s1 -> live (m_state s) -> m_right s1 = m_right s ->
    ((nf s1 <= nf s)%nat \/ cell (m_gb s) p < 10) -> (m_state s = Playing -> m_state s1 = Playing) -> m_state s1 <> Win ->
    inb (m_row s) (m_column s) p -> right_result s1 (fst p) (snd p) s' o -> step_kind s e p s'
| SK_chord s1 o : quiet True s s1 -> live (m_state s) -> live (m_state s1) ->
    (m_state s <> Playing -> s' = w_double s1 (S (m_double s1))) ->
    inb (m_row s) (m_column s) p -> chord_result s1 (fst p) (snd p) s' o -> step_kind s e p s'.

Ltac quiet_tac Em := constructor;
  [constructor; reflexivity
  |cbn [m_right w_mouse w_mid w_state w_preflag]; lia
  |intros _; unfold nf; cbn [m_right m_mouse notflag w_mouse w_mid w_state w_preflag]; rewrite ?Em; cbn [notflag]; lia
  |cbn [m_state w_mouse w_mid w_state w_preflag]; auto; try congruence
  |cbn [m_state w_mouse w_mid w_state w_preflag]; auto; try congruence].

Section OneStep.
Variables (s : mb) (e : event) (p : pos) (s' : mb) (o : outcome).
Hypothesis HI : Inv s.
Hypothesis Hlv : live (m_state s).

Lemma quiet_inv s1 : quiet True s s1 -> m_preflag s1 = m_preflag s -> m_state s1 = m_state s -> Inv s1.
Proof.
  intros [[] _ _ _ _] E1 E2. unfold Inv in *.
  now rewrite c_row0, c_column0, c_board0, c_gb0, c_flag0, c_px0, c_py0, E1, E2.
Qed.

Lemma kind_chord_at s1 : quiet True s s1 -> m_preflag s1 = m_preflag s -> m_state s1 = m_state s ->
  chord_at s1 p = Ok (s', o) -> step_kind s e p s'.
Proof.
  intros Hq E1 E2 E. pose proof (quiet_inv Hq E1 E2) as HI1. unfold chord_at, ret in E. destruct (at_corner s1 p).
  - injection E as <- <-. apply SK_quiet. destruct Hq as [A B C D F]. split; auto.
  - apply chord_any in E; [|exact HI1|now rewrite E2]. destruct E as (Hin & _ & Hr & _ & Hnp).
    destruct Hq as [A B C D F]. eapply SK_chord; [split; eauto|exact Hlv|now rewrite E2|rewrite <- E2; exact Hnp| |exact Hr].
    rewrite (c_row A), (c_column A) in Hin. exact Hin.
Qed.
Lemma kind_chord_at_right s1 : core s s1 -> m_right s1 = m_right s -> nf s = 1%nat -> nf s1 = 0%nat -> m_preflag s1 = m_preflag s ->
  m_state s1 = m_state s ->
  chord_at_right s1 p = Ok (s', o) -> step_kind s e p s'.
Proof.
  intros Hc E0 E1 E2 E3 E4 E. unfold chord_at_right, usub in E.
  destruct (Nat.leb_spec 1 (m_right s1)); cbn [bind] in E; [|discriminate].
  eapply kind_chord_at; [| | |exact E]; [|exact E3|exact E4].
  split.
  - destruct Hc. split; auto.
  - cbn [m_right w_right]. lia.
  - intros _. cbn [m_right w_right]. change (nf (w_right s1 _)) with (nf s1). lia.
  - cbn [m_state w_right]. congruence.
  - cbn [m_state w_right]. congruence.
Qed.
Lemma kind_left_at s1 : quiet True s s1 -> m_state s1 = Playing -> Inv s1 -> nf s1 = 0%nat ->
  left_at s1 p = Ok (s', o) -> step_kind s e p s'.
Proof.
  intros Hq E1 HI1 Hn E. unfold left_at, ret in E. destruct (at_corner s1 p).
  - injection E as <- <-. apply SK_quiet. destruct Hq as [A B C D F]. split; auto.
  - apply left_any in E; [|exact HI1|exact E1]. destruct E as (Hin & _ & Hr & _).
    eapply SK_left; [exact Hq|exact Hlv|exact E1|exact Hn| |exact Hr].
    destruct Hq as [A _ _ _ _]. rewrite (c_row A), (c_column A) in Hin. exact Hin.
Qed.
Lemma kind_right s1 : core s s1 -> m_right s1 = m_right s -> ((nf s1 <= nf s)%nat \/ cell (m_gb s) p < 10) ->
  (m_state s = Playing -> m_state s1 = Playing) -> m_state s1 <> Win ->
  right_click s1 (fst p) (snd p) = Ok (s', o) -> step_kind s e p s'.
Proof.
  intros Hc Hr Hn Hpl Hnw E. destruct (inv_live HI Hlv) as (Hleg & Hrow & Hrect & Hgood & Hptr).
  pose proof (i_flag HI Hlv) as Hfl.
  destruct (inb_dec (m_row s) (m_column s) (fst p, snd p)) as [Hp|Hp].
  2:{ exfalso. unfold right_click in E. cbn [m_gb w_right] in E. rewrite (c_gb Hc), (get_out Hrect Hp) in E. discriminate. }
  destruct (@right_click_ok s1) with (x := fst p) (y := snd p) as (s2 & o2 & E2 & Hres);
    rewrite ?(c_row Hc), ?(c_column Hc), ?(c_board Hc), ?(c_gb Hc), ?(c_flag Hc); auto.
  rewrite E in E2. injection E2 as <- ->. eapply SK_right; eauto.
Qed.
End OneStep.

Ltac kret E Em := unfold ret, fail in E; injection E as <- <-; apply SK_quiet; quiet_tac Em.
Ltac ksolve HI Hlv E Em :=
  first
  [ kret E Em
  | eapply (kind_chord_at _ HI Hlv); [| | |exact E]; [quiet_tac Em|reflexivity|reflexivity]
  | eapply (kind_chord_at_right _ HI Hlv); [| | | | | |exact E];
      [constructor; reflexivity|reflexivity|unfold nf; rewrite Em; reflexivity|reflexivity|reflexivity|reflexivity] ].

Lemma kind_playing_rest s e p s' o : Inv s -> live (m_state s) ->
  (m_state s = Playing \/ ~ (e = e_lr \/ e = e_l) \/ m_mouse s <> DownUp) ->
  step_playing s e p = Ok (s', o) -> step_kind s e p s'.
Proof.
  intros HI Hlv Hd E. destruct (inv_live HI Hlv) as (Hleg & Hrow & Hrect & Hgood & Hptr).
  destruct e; cbn [step_playing] in E;
    try (kret E HI; fail);
    try (match type of E with match m_mouse s with _ => _ end = _ => idtac end; destruct (m_mouse s) eqn:Em; try ksolve HI Hlv E Em).
  - destruct Hd as [Hst|[Hd|Hd]]; [|tauto|congruence].
    eapply (kind_left_at _ Hlv); [| | | |exact E]; [quiet_tac Em|exact Hst|exact HI|reflexivity].
  - destruct (in_board s p) eqn:Eb.
    + apply bind_ok in E as (w & Ew & E). destruct (get_inv 0 Hrect Ew) as [Hp Hw]. change (gcell 0) with cell in Hw.
      rewrite pos_eta in Hw.
      eapply (kind_right _ HI Hlv); [| | | | |exact E]; [constructor; reflexivity|reflexivity| |auto|cbn; unfold live in Hlv; intuition congruence].
      destruct (Z.ltb_spec w 10); [right; lia|left; apply Nat.le_0_l].
    + unfold ret in E; injection E as <- <-. apply SK_quiet. constructor; [constructor; reflexivity|cbn; lia| |auto|auto].
      intros [Hin|(_ & Hc & _)]; [|congruence]. apply (in_board_iff s) in Hin. congruence.
  - (* mr *) apply chord_any in E; [|exact HI|exact Hlv]. destruct E as (Hin & _ & Hr & _ & Hnp).
    eapply SK_chord; [|exact Hlv| | |exact Hin|exact Hr]; [quiet_tac HI|exact Hlv|exact Hnp].
  - destruct Hd as [Hst|[Hd|Hd]]; [|tauto|congruence].
    eapply (kind_left_at _ Hlv); [| | | |exact E]; [quiet_tac Em|exact Hst|exact HI|reflexivity].
  - apply bind_ok in E as (w & Ew & E). destruct (get_inv 0 Hrect Ew) as [Hp Hw]. change (gcell 0) with cell in Hw.
    rewrite pos_eta in Hw.
    eapply (kind_right _ HI Hlv); [| | | | |exact E]; [constructor; reflexivity|reflexivity| |auto|cbn; unfold live in Hlv; intuition congruence].
    destruct (Z.ltb_spec w 10); [right; lia|left; apply Nat.le_0_l].
  - destruct (negb (m_mid (w_mid s (negb (m_mid s))))) eqn:Emid.
    + apply chord_any in E; [|exact HI|exact Hlv]. destruct E as (Hin & _ & Hr & _ & Hnp).
      eapply SK_chord; [|exact Hlv| | |exact Hin|exact Hr]; [quiet_tac HI|exact Hlv|exact Hnp].
    + kret E HI.
Qed.

Lemma kind_ready s e p s' o : Inv s -> m_state s = Ready -> step_ready s e p = Ok (s', o) -> step_kind s e p s'.
Proof.
  intros HI Hst E. assert (Hlv : live (m_state s)) by (rewrite Hst; unfold live; auto).
  destruct e; cbn [step_ready] in E; try (kret E HI; fail);
    try (match type of E with match m_mouse s with _ => _ end = _ => idtac end; destruct (m_mouse s) eqn:Em; try (kret E Em; fail)).
  - unfold ret in E. injection E as <- <-. apply SK_quiet. destruct (in_board _ p); quiet_tac Em.
  - destruct (in_board _ p); [|kret E Em].
    eapply (kind_right _ HI Hlv); [| | | | |exact E]; [constructor; reflexivity|reflexivity|left; apply Nat.le_0_l|congruence|discriminate].
  - apply bind_ok in E as (w & _ & E). destruct (Z.eqb_spec w 10); [|discriminate].
    eapply (kind_right _ HI Hlv); [| | | | |exact E]; [constructor; reflexivity|reflexivity|left; reflexivity|congruence|discriminate].
Qed.

Lemma kind_preflag s e p s' o : Inv s -> m_state s = PreFlaging -> step_preflag s e p = Ok (s', o) -> step_kind s e p s'.
Proof.
  intros HI Hst E. assert (Hlv : live (m_state s)) by (rewrite Hst; unfold live; auto).
  destruct (inv_live HI Hlv) as (Hleg & Hrow & Hrect & Hgood & Hptr).
  destruct e; cbn [step_preflag] in E; try (kret E HI; fail);
    try (eapply (kind_playing_rest HI Hlv) in E; [exact E|right; left; intros [?|?]; discriminate]);
    try (match type of E with match m_mouse s with _ => _ end = _ => idtac end; destruct (m_mouse s) eqn:Em; try (kret E Em; fail));
    try (eapply (kind_playing_rest HI Hlv) in E; [exact E|right; right; congruence]).
  - (* lr DownUp *) destruct (at_corner s p).
    + unfold ret in E. injection E as <- <-. cbn [m_preflag w_mouse].
      destruct (m_preflag s =? 0)%nat; [|apply SK_quiet; quiet_tac Em].
      eapply SK_clear; auto.
    + apply bind_ok in E as (w & Ew & E). destruct (w =? 10); cbn [step_playing m_mouse w_state w_mouse] in E.
      * rewrite Em in E. eapply (kind_left_at _ Hlv); [| | | |exact E]; [quiet_tac Em|reflexivity|exact (play_inv HI Hst)|reflexivity].
      * kret E Em.
  - (* rc UpUp *) destruct (in_board _ p) eqn:Eb.
    2:{ cbn [step_playing m_mouse w_mouse] in E. kret E Em. }
    apply bind_ok in E as (w & Ew & E). destruct (get_inv 0 Hrect Ew) as [Hp Hw]. change (gcell 0) with cell in Hw.
    cbn [m_gb w_mouse] in Hw. 
    destruct (Z.eqb_spec w 10) as [E10|E10].
    { eapply (kind_right _ HI Hlv); [| | | | |exact E]; [constructor; reflexivity|reflexivity|left; apply Nat.le_0_l|congruence|discriminate]. }
    apply bind_ok in E as (n & _ & E). destruct (n =? 0)%nat.
    2:{ eapply (kind_right _ HI Hlv); [| | | | |exact E]; [constructor; reflexivity|reflexivity|left; apply Nat.le_0_l|auto|cbn; congruence]. }
    apply bind_ok in E as (g' & Es & E). unfold ret in E. injection E as <- <-.
    cbn [m_gb clear_click_num w_state w_preflag w_mouse w_right w_left w_double w_flaged w_flag] in Es.
    rewrite (set_ok _ Hrect Hp) in Es. injection Es as <-.
    eapply SK_clear; auto. right. split; [exact Hp|]. rewrite pos_eta in *. split; [|reflexivity].
    destruct (i_pre HI (or_intror Hst) Hp); auto; rewrite ?pos_eta in *; congruence.
  - (* rc DownUp *) cbn [step_playing m_mouse w_mouse m_preflag] in E.
    match type of E with context [if ?c then _ else _] => destruct c end; cbn [m_mouse w_state w_mouse] in E; kret E Em.
  - cbv zeta in E. destruct (in_board s p && (m_preflag s =? 0)%nat); kret E Em.
  - apply bind_ok in E as (w & Ew & E). destruct (w =? 10) eqn:E10; [|discriminate].
    eapply (kind_right _ HI Hlv); [| | | | |exact E]; [constructor; reflexivity|reflexivity|left; reflexivity|auto|cbn; congruence].
Qed.

Theorem step_kind_ok s e p s' o : Inv s -> step s e p = Ok (s', o) -> step_kind s e p s'.
Proof.
  intros HI E. unfold step in E. destruct (m_state s) eqn:Hst.
  - eapply kind_ready; eauto. - eapply kind_preflag; eauto.
  - eapply kind_playing_rest; eauto. rewrite Hst. unfold live; auto.
  - kret E HI. - kret E HI. - kret E HI.
Qed.

(** ** counters *)
Definition clicks (s : mb) : nat := (m_left s + m_right s + m_double s)%nat.

Record counters (s : mb) (e : event) (p : pos) (s' : mb) : Prop := {
  k_row : m_row s' = m_row s;
  k_column : m_column s' = m_column s;
  k_board : m_board s' = m_board s;
  k_ce : (m_ce s <= m_ce s' <= S (m_ce s))%nat;
  k_solved : (m_solved s <= m_solved s')%nat;
  k_eff : (m_solved s < m_solved s')%nat -> m_ce s' = S (m_ce s);
  k_mono : ((m_left s <= m_left s')%nat /\ (m_double s <= m_double s')%nat /\ (m_right s <= S (m_right s'))%nat) \/
     (m_state s = PreFlaging /\ m_state s' = Ready);
  k_weight : fine_pos (m_row s) (m_column s) e p ->
     (m_ce s' + nf s' + clicks s <= m_ce s + nf s + clicks s')%nat \/
     (m_state s = PreFlaging /\ m_state s' = Ready /\ nf s' = 0%nat /\ m_ce s' = m_ce s)
}.

Lemma step_counters s e p s' o : Inv s -> step s e p = Ok (s', o) -> counters s e p s'.
Proof.
  intros HI E. apply step_kind_ok in E; auto.
  destruct E as [Hq|Hs Hs' E1 E2 E3 E4 E5 E6 E7|s1 o1 Hq Hl Hst Hn Hp Hr|s1 o1 Hc Hl Hrr Hn Hst Hnw Hp Hr|s1 o1 Hq Hl Hl1 Hnp Hp Hr].
  - destruct Hq as [[] Hr Hnf Hpl _]. 
    split; auto; rewrite ?c_ce0, ?c_solved0, ?c_left0, ?c_double0; try lia.
    intros Hf. specialize (Hnf Hf). left. unfold clicks. rewrite c_left0, c_double0. lia.
  - split; auto; try lia.
  - apply left_frame in Hr as (F1 & F2 & F3 & F4 & F5 & F6 & F7 & F8 & F9 & F10 & F11).
    destruct Hq as [[] Hr Hnf Hpl _]. specialize (Hnf I).
    assert (En : nf s' = nf s1) by (unfold nf; now rewrite F7).
    rewrite c_ce0, c_solved0 in *.
    split; try congruence; auto; try (intros; lia).
    intros _. left. unfold clicks. lia.
  - assert (Hn' : (nf s1 <= nf s)%nat \/ (nf s1 <= 1)%nat /\ m_ce s' = m_ce s1).
    { destruct Hn as [?|Hn]; auto. right. split; [unfold nf; destruct (notflag _); lia|].
      apply right_frame in Hr as (_ & _ & _ & _ & _ & _ & _ & _ & _ & _ & _ & F). apply F.
      rewrite (c_gb Hc), pos_eta. exact Hn. }
    apply right_frame in Hr as (F1 & F2 & F3 & F0 & F4 & F5 & F6 & F7 & F8 & F9 & F10 & _).
    assert (En : nf s' = nf s1) by (unfold nf; now rewrite F7).
    destruct Hc. rewrite c_ce0, c_solved0 in *.
    split; try congruence; auto; try (intros; lia).
    intros _. left. unfold clicks. lia.
  - apply chord_frame in Hr as (F1 & F2 & F3 & F4 & F5 & F6 & F7 & F8 & F9 & F10 & F11).
    destruct Hq as [[] Hr Hnf Hpl _]. specialize (Hnf I).
    assert (En : nf s' = nf s1) by (unfold nf; now rewrite F7).
    rewrite c_ce0, c_solved0 in *.
    split; try congruence; auto; try (intros; lia).
    intros _. left. unfold clicks. lia.
Qed.

(** ** solved 3BV *)
Section Solved.
Variables (row column : nat) (b : board).
Hypothesis Hleg : legal_board row column b.
Hypothesis Hrow : (0 < row)%nat.
Notation Z0 := (zero_cell row column b).

Definition open_islands (g : board) : nat :=
  count (fun q => island_cellb row column b q && (cell g q <? 10)) (positions row column).

(** at least one counted opening per completely open component *)
Definition Jlow (us : list pos) (g : board) : Prop :=
  forall q, Z0 q -> (exists u, In u us /\ connected Z0 u q) \/ (exists r, connected Z0 q r /\ 10 <= cell g r).
(** exactly one per open component *)
Definition Jup (us : list pos) (g : board) : Prop :=
  NoDup us /\ (forall u1 u2, In u1 us -> In u2 us -> connected Z0 u1 u2 -> u1 = u2) /\
  (forall u, In u us -> Z0 u /\ cell g u < 10) /\
  (forall q r, connected Z0 q r -> cell g q < 10 -> cell g r < 10).
Definition no_zero_flag (g : board) : Prop := forall q, Z0 q -> cell g q <> 11.

Variable g : board.
Hypothesis Hrect : rect row column g.
Hypothesis Hgood : forall q, inb row column q -> good b g q.

Section Opened.
Variables (cl : list pos) (g' : board).
Hypothesis Hcl : forall p, In p cl -> inb row column p /\ cell g p = 10.
Hypothesis Eg : refresh_board b g cl = Ok g'.
Notation O := (opens row column b g cl).

Lemma shown_iff q : inb row column q -> (cell g' q < 10 <-> cell g q < 10 \/ (O q /\ cell b q <> -1)).
Proof.
  intros Hq. destruct (@refresh_live row column b Hleg Hrow g cl Hrect Hgood Hcl)
    as (g2 & E2 & Hr' & Hdec & Hob & Hom & Hs & Hl).
  rewrite Eg in E2. injection E2 as <-.
  destruct (existsb (is_mine b) cl) eqn:Em.
  - apply existsb_exists in Em as (m & Hm & Em). apply Z.eqb_eq in Em.
    destruct (Hl (ex_intro _ m (conj Hm Em)) q Hq) as [H1 H2].
    destruct (Hdec q Hq) as [HO|HO].
    + rewrite (H1 HO). pose proof (proj2 (Hob q HO)). unfold shown.
      destruct (Z.ltb_spec (cell b q) 0) as [Hb|Hb].
      * split; [lia|]. intros [?|[_ ?]]; [lia|]. exfalso.
        pose proof (safe_range Hleg Hrow Hq ltac:(assumption)). lia.
      * pose proof (legal_lt10 Hleg Hrow Hq). split; [right; split; auto; lia|lia].
    + rewrite (H2 HO). destruct (Z.eqb_spec (cell g q) 11) as [E11|E11]; cbn [andb].
      * destruct (negb (is_mine b q)); split; try lia; intros [?|[? _]]; [lia|contradiction|lia|contradiction].
      * split; [auto|]. intros [?|[? _]]; [auto|contradiction].
  - assert (Hsf : forall p, In p cl -> cell b p <> -1).
    { intros p Hi Em'. assert (existsb (is_mine b) cl = true); [|congruence].
      apply existsb_exists. exists p. split; auto. now apply Z.eqb_eq. }
    destruct (Hs Hsf q Hq) as [H1 H2]. destruct (Hdec q Hq) as [HO|HO].
    + destruct (H1 HO) as [-> ?]. pose proof (legal_lt10 Hleg Hrow Hq). split; auto.
    + rewrite (H2 HO). split; auto. intros [?|[? _]]; [auto|contradiction].
Qed.

Lemma opens_10 q : O q -> inb row column q /\ cell g q = 10.
Proof.
  destruct (@refresh_live row column b Hleg Hrow g cl Hrect Hgood Hcl)
    as (g2 & E2 & Hr' & Hdec & Hob & Hom & Hs & Hl). auto.
Qed.
Lemma opens_zero q : O q -> cell b q = 0 -> exists t, In t cl /\ Z0 t /\ connected Z0 t q.
Proof.
  intros HO. induction HO as [p Hp|p q Hp IH H0 Hq Ha Hc]; intros Hz.
  - exists p. split; auto. assert (Z0 p) by (split; auto; now apply Hcl). split; auto. now constructor.
  - destruct (IH H0) as (t & Ht & Hz' & Hc'). exists t. split; auto. split; auto.
    eapply conn_step; [exact Hc'|apply Ha|]. split; auto.
Qed.
Lemma opens_island q : O q -> island_cell row column b q -> In q cl.
Proof.
  intros HO (Hq & Hpos & Hno). destruct HO as [p Hp|p q Hp H0 Hq' Ha Hc]; auto. exfalso.
  apply (Hno p); auto. - now apply opens_10 in Hp. - apply near_sym, Ha.
Qed.

Lemma islands_opened : NoDup cl ->
  open_islands g' = (open_islands g + count (island_cellb row column b) cl)%nat.
Proof.
  intros Hnd. unfold open_islands.
  rewrite (@count_split _ (fun q => island_cellb row column b q && (cell g' q <? 10)) (fun q => cell g q <? 10)).
  f_equal.
  - apply count_ext. intros q Hq. apply in_positions in Hq. 
    destruct (island_cellb row column b q); cbn [andb]; auto.
    destruct (Z.ltb_spec (cell g q) 10) as [H|H].
    + destruct (Z.ltb_spec (cell g' q) 10) as [H'|H']; auto. exfalso.
      assert (cell g' q < 10) by (apply shown_iff; auto). lia.
    + now rewrite andb_false_r.
  - apply count_same; auto using NoDup_positions. intros q. rewrite in_positions. split.
    + intros [Hq H]. apply andb_true_iff in H as [H H2]. apply andb_true_iff in H as [H1 H3].
      apply negb_true_iff, Z.ltb_ge in H2. apply Z.ltb_lt in H3. split; auto.
      apply shown_iff in H3; auto. destruct H3 as [?|[HO _]]; [lia|].
      apply opens_island; auto. now apply island_cellb_iff.
    + intros [Hi H]. destruct (Hcl Hi) as [Hq H10]. split; auto. rewrite H, H10. cbn [andb].
      apply island_cellb_iff in H as (_ & Hpos & _); auto.
      assert (E : cell g' q < 10) by (apply shown_iff; auto; right; split; [now constructor|lia]).
      apply Z.ltb_lt in E. rewrite E. reflexivity.
Qed.

Lemma Jlow_opened us vs : Jlow us g ->
  (forall t, In t cl -> Z0 t -> (exists v, In v vs /\ connected Z0 v t) \/ (exists r, connected Z0 t r /\ cell g r = 11)) ->
  Jlow (vs ++ us) g'.
Proof.
  intros HJ Hvs q Hq. destruct (HJ q Hq) as [(u & Hu & Hc)|(r & Hr & Hge)].
  { left. exists u. split; auto. apply in_or_app; auto. }
  assert (Hrb : inb row column r) by (apply connected_r in Hr; apply Hr).
  assert (Hrz : cell b r = 0) by (apply connected_r in Hr; apply Hr).
  destruct (Z_lt_le_dec (cell g' r) 10) as [Hlt|]; [|right; exists r; auto].
  apply shown_iff in Hlt; auto. destruct Hlt as [?|[HO _]]; [lia|].
  destruct (opens_zero HO Hrz) as (t & Ht & Hz & Hc).
  assert (Hqt : connected Z0 q t) by (eapply connected_trans; [exact Hr|now apply connected_sym]).
  destruct (Hvs t Ht Hz) as [(v & Hv & Hcv)|(r' & Hr' & E11)].
  - left. exists v. split; [apply in_or_app; auto|]. eapply connected_trans; [exact Hcv|]. now apply connected_sym.
  - right. exists r'. assert (Hqr' : connected Z0 q r') by (eapply connected_trans; eauto). split; auto.
    destruct (Z_lt_le_dec (cell g' r') 10) as [Hlt|]; auto. exfalso.
    assert (Hb' : inb row column r') by (apply connected_r in Hr'; apply Hr').
    apply shown_iff in Hlt; auto. destruct Hlt as [?|[HO' _]]; [lia|]. apply opens_10 in HO'. lia.
Qed.

Lemma Jup_opened us vs : Jup us g -> no_zero_flag g ->
  NoDup vs -> (forall u1 u2, In u1 vs -> In u2 vs -> connected Z0 u1 u2 -> u1 = u2) ->
  (forall v, In v vs -> Z0 v /\ In v cl) ->
  Jup (vs ++ us) g'.
Proof.
  intros (Hnd & Huq & Hop & Hcls) Hnf Hnd' Huq' Hv.
  assert (Hsep : forall v u, In v vs -> In u us -> ~ connected Z0 u v).
  { intros v u Hiv Hiu Hc. destruct (Hop u Hiu) as [_ Hlt]. pose proof (Hcls _ _ Hc Hlt).
    destruct (Hv v Hiv) as [_ Hic]. apply Hcl in Hic. lia. }
  split; [|split; [|split]].
  - apply NoDup_app_disj.
    + exact Hnd'. + exact Hnd.
    + intros x Hx1 Hx2. apply (Hsep x x Hx1 Hx2). constructor. now apply Hv.
  - intros u1 u2 H1 H2 Hc. apply in_app_or in H1 as [H1|H1]; apply in_app_or in H2 as [H2|H2]; auto; exfalso.
    + apply (Hsep u1 u2); auto. now apply connected_sym.
    + apply (Hsep u2 u1); auto.
  - intros u Hu. apply in_app_or in Hu as [Hu|Hu].
    + destruct (Hv u Hu) as [Hz Hi]. split; auto. apply shown_iff; [apply Hz|]. right. split; [now constructor|].
      destruct Hz as [_ ->]. lia.
    + destruct (Hop u Hu) as [Hz Hlt]. split; auto. apply shown_iff; [apply Hz|]. auto.
  - intros q r Hc Hlt.
    assert (Hqb : inb row column q) by (apply connected_l in Hc; apply Hc).
    apply shown_iff in Hlt; auto. destruct Hlt as [Hlt|[HO Hm]].
    + apply shown_iff; [apply connected_r in Hc; apply Hc|]. left. eapply Hcls; eauto.
    + assert (Hall : O r); [|].
      { assert (Hq10 : cell g q = 10) by (now apply opens_10).
        clear Hm. induction Hc as [p Hp|p q r Hpq IH Hn Hr]; auto. specialize (IH HO Hqb Hq10).
        destruct (pos_eq_dec q r) as [->|Hne]; auto.
        apply opens_spread with q; auto; [apply connected_r in Hpq; apply Hpq|apply Hr|split; auto|].
        destruct (Hgood (proj1 Hr)) as [?|[E|[E E']]]; auto; [exfalso; now apply (Hnf r)|].
        exfalso. assert (Hlt : cell g r < 10) by (destruct Hr as [_ Hr]; lia).
        assert (Hrp : connected Z0 r p) by (apply connected_sym; eapply conn_step; eauto).
        pose proof (Hcls _ _ Hrp Hlt). lia. }
      assert (Hz : Z0 r) by (eapply connected_r; eauto). destruct Hz as [Hz1 Hz2].
      apply shown_iff; auto. right. split; auto. lia.
Qed.
End Opened.

(** toggling flags changes nothing *)
Lemma J_same us (h : board) :
  (forall q, inb row column q -> cell h q < 10 <-> cell g q < 10) ->
  (Jlow us g -> Jlow us h) /\ (Jup us g -> Jup us h) /\ open_islands h = open_islands g.
Proof.
  intros H. split; [|split].
  - intros HJ q Hq. destruct (HJ q Hq) as [?|(r & Hr & Hge)]; auto. right. exists r. split; auto.
    destruct (Z_lt_le_dec (cell h r) 10) as [Hlt|]; auto. exfalso. apply H in Hlt; [lia|]. apply connected_r in Hr. apply Hr.
  - intros (A & B & C & D). split; auto. split; auto. split.
    + intros u Hu. destruct (C u Hu) as [Hz Hlt]. split; auto. apply H; auto. apply Hz.
    + intros q r Hc Hlt. assert (Hq : inb row column q) by (apply connected_l in Hc; apply Hc).
      assert (Hr : inb row column r) by (apply connected_r in Hc; apply Hc).
      apply H; auto. apply H in Hlt; auto. eapply D; eauto.
  - unfold open_islands. apply count_ext. intros q Hq. apply in_positions in Hq. f_equal.
    specialize (H q Hq). destruct (Z.ltb_spec (cell h q) 10), (Z.ltb_spec (cell g q) 10); auto; lia.
Qed.
End Solved.

Lemma count_filter {A} (f h : A -> bool) l : count f (filter h l) = count (fun x => h x && f x) l.
Proof.
  induction l as [|x l IH]; [reflexivity|]. cbn [filter]. rewrite count_cons. destruct (h x); cbn [andb]; rewrite ?count_cons, IH; reflexivity.
Qed.

Definition J (up : Prop) (s : mb) : Prop :=
  exists us, m_solved s = (length us + open_islands (m_row s) (m_column s) (m_board s) (m_gb s))%nat /\
    Jlow (m_row s) (m_column s) (m_board s) us (m_gb s) /\
    (up -> Jup (m_row s) (m_column s) (m_board s) us (m_gb s)).

Lemma J_core up s s' : core s s' -> J up s -> J up s'.
Proof.
  intros [] (us & H). exists us. now rewrite c_row0, c_column0, c_board0, c_gb0, c_solved0.
Qed.

Lemma J_left up s x y s' o : Inv s -> live (m_state s) -> J up s -> inb (m_row s) (m_column s) (x, y) ->
  (up -> no_zero_flag (m_row s) (m_column s) (m_board s) (m_gb s)) -> left_result s x y s' o -> J up s'.
Proof.
  intros HI Hlv (us & Es & Hlow & Hup) Hp Hnf Hr.
  destruct (inv_live HI Hlv) as (Hleg & Hrow & Hrect & Hgood & Hptr).
  destruct Hr as [H|g' H10 Hm Eg|g' k s' H10 Hm Eg Hk1 Hk2 Ew].
  - exists us. auto.
  - assert (Hcl : forall p, In p [(x, y)] -> inb (m_row s) (m_column s) p /\ cell (m_gb s) p = 10) by (intros p [<-|[]]; auto).
    exists ([] ++ us). cbn [m_solved m_row m_column m_board m_gb w_state w_gb w_left].
    split; [|split].
    + rewrite (islands_opened Hleg Hrow Hrect Hgood Hcl Eg) by (repeat constructor; intros []).
      rewrite count_cons, count_nil. unfold island_cellb. rewrite Hm. cbn [Z.ltb Z.compare andb app]. lia.
    + apply (Jlow_opened Hleg Hrow Hrect Hgood Hcl Eg Hlow). intros t [<-|[]] [_ Hz]. lia.
    + intros Hu. apply (Jup_opened Hleg Hrow Hrect Hgood Hcl Eg (Hup Hu) (Hnf Hu)); [constructor|intros ? ? []|intros ? []].
  - assert (Hcl : forall p, In p [(x, y)] -> inb (m_row s) (m_column s) p /\ cell (m_gb s) p = 10) by (intros p [<-|[]]; auto).
    apply check_win_frame in Ew. cbn [m_solved m_row m_column m_board m_gb w_ce w_solved w_gb w_left] in Ew.
    destruct Ew as (E1 & E2 & E3 & E4 & _ & _ & _ & _ & E5 & _).
    assert (Hvs : exists vs, (length vs + count (island_cellb (m_row s) (m_column s) (m_board s)) [(x, y)] = k)%nat /\
       (vs = [] \/ (vs = [(x, y)] /\ cell (m_board s) (x, y) = 0)) /\
       (cell (m_board s) (x, y) = 0 -> In (x, y) vs \/ exists r, connected (zero_cell (m_row s) (m_column s) (m_board s)) (x, y) r /\ cell (m_gb s) r = 11)).
    { rewrite count_cons, count_nil. destruct (Z.eq_dec (cell (m_board s) (x, y)) 0) as [E0|E0].
      - assert (Ei : island_cellb (m_row s) (m_column s) (m_board s) (x, y) = false) by (unfold island_cellb; now rewrite E0).
        rewrite Ei. destruct (Hk2 E0) as [[-> _]|[-> Hex]].
        + exists [(x, y)]. split; [reflexivity|]. split; auto. intros _. left. now left.
        + exists []. split; [reflexivity|]. split; auto.
      - exists []. split; [rewrite (Hk1 E0); destruct (island_cellb _ _ _ _); reflexivity|]. split; auto. intros; contradiction. }
    destruct Hvs as (vs & Ek & Hv & Hz).
    exists (vs ++ us). rewrite E1, E2, E3, E4, E5. split; [|split].
    + rewrite (islands_opened Hleg Hrow Hrect Hgood Hcl Eg) by (repeat constructor; intros []).
      rewrite app_length. lia.
    + apply (Jlow_opened Hleg Hrow Hrect Hgood Hcl Eg Hlow). intros t [<-|[]] Ht.
      destruct (Hz (proj2 Ht)) as [Hi|Hex]; auto. left. exists (x, y). split; auto. now constructor.
    + intros Hu. apply (Jup_opened Hleg Hrow Hrect Hgood Hcl Eg (Hup Hu) (Hnf Hu)).
      * destruct Hv as [->|[-> _]]; repeat constructor. intros [].
      * destruct Hv as [->|[-> _]]; [intros ? ? []|]. intros u1 u2 [<-|[]] [<-|[]]; auto.
      * intros v Hi. destruct Hv as [->|[-> E0]]; [destruct Hi|]. destruct Hi as [<-|[]]. split; [split; auto|left; auto].
Qed.

Lemma J_chord up s x y s' o : Inv s -> live (m_state s) -> J up s -> inb (m_row s) (m_column s) (x, y) ->
  (up -> no_zero_flag (m_row s) (m_column s) (m_board s) (m_gb s)) -> chord_result s x y s' o -> J up s'.
Proof.
  intros HI Hlv (us & Es & Hlow & Hup) Hp Hnf Hr.
  destruct (inv_live HI Hlv) as (Hleg & Hrow & Hrect & Hgood & Hptr).
  destruct Hr as [H|g' n vs s' Hr Eg Hlen Hu1 Hu2 Hu3 Ew].
  { exists us. auto. }
  assert (Hcl : forall p, In p (chord_cells s x y) -> inb (m_row s) (m_column s) p /\ cell (m_gb s) p = 10)
    by (intros p Hi; now apply in_chord_cells in Hi).
  assert (Hhot : forall t, hot s x y t <-> In t (chord_cells s x y) /\ zero_cell (m_row s) (m_column s) (m_board s) t).
  { intros t. rewrite in_chord_cells. unfold hot, zero_cell, adj. split.
    - intros (A & B & C & D). split; [|auto]. split; auto. split; auto. split; auto. intros <-.
      destruct Hr as [Hr _]. lia.
    - intros ((A & (_ & B) & C) & _ & D). auto. }
  apply check_win_frame in Ew. cbn [m_solved m_row m_column m_board m_gb w_ce w_solved w_gb w_double w_state] in Ew.
  destruct Ew as (E1 & E2 & E3 & E4 & _ & _ & _ & _ & E5 & _).
  exists (vs ++ us). rewrite E1, E2, E3, E4, E5. split; [|split].
  - rewrite (islands_opened Hleg Hrow Hrect Hgood Hcl Eg) by (apply NoDup_filter, NoDup_zone).
    rewrite app_length, Hlen, Es. unfold chord_cells. rewrite count_filter.
    generalize (count (fun q => chord_cell s x y q && island_cellb (m_row s) (m_column s) (m_board s) q)
      (zone (m_row s) (m_column s) x y)). intros c.
    generalize (open_islands (m_row s) (m_column s) (m_board s) (m_gb s)). intros d. lia.
  - apply (Jlow_opened Hleg Hrow Hrect Hgood Hcl Eg Hlow). intros t Ht Hz.
    assert (Hh : hot s x y t) by (apply Hhot; auto).
    destruct t as [i j].
    destruct (@op_fresh s Hleg Hrect i j (proj1 Hz) (proj2 Hz)) as (r & mk & _ & Hdec). destruct r.
    + left. apply Hu2; auto.
    + right. exact Hdec.
  - intros Hu. destruct (Hu3 (Hnf Hu)) as [Hn1 Hn2].
    apply (Jup_opened Hleg Hrow Hrect Hgood Hcl Eg (Hup Hu) (Hnf Hu)); auto.
    intros v Hv. apply Hu1, Hhot in Hv. tauto.
Qed.

Lemma core_inv s s1 : Inv s -> live (m_state s) -> core s s1 -> m_state s1 = Playing -> Inv s1.
Proof.
  intros HI Hlv Hc Hst. unfold Inv in *.
  rewrite (c_row Hc), (c_column Hc), (c_board Hc), (c_gb Hc), (c_flag Hc), (c_px Hc), (c_py Hc), Hst.
  destruct HI as [H1 H2 H3 H4 H5 H6 H7 H8 H9 H10 H11 H12 H13 H14].
  constructor; auto; try discriminate; intros [?|?]; discriminate.
Qed.
(** For the click lemmas only the view matters, not the declared state. *)
Lemma J_step up s e p s' o : Inv s -> J up s ->
  (up -> no_zero_flag (m_row s) (m_column s) (m_board s) (m_gb s)) -> step s e p = Ok (s', o) -> J up s'.
Proof.
  intros HI HJ Hnf E. apply step_kind_ok in E; auto.
  assert (Hn1 : forall s1, core s s1 -> up -> no_zero_flag (m_row s1) (m_column s1) (m_board s1) (m_gb s1)).
  { intros s1 [] Hu. rewrite c_row0, c_column0, c_board0, c_gb0. auto. }
  assert (Hpl : forall s1, live (m_state s) -> core s s1 -> Inv (w_state s1 Playing) /\ J up (w_state s1 Playing)).
  { intros s1 Hl Hc. assert (Hc' : core s (w_state s1 Playing)) by (destruct Hc; constructor; auto).
    split; [eapply core_inv; eauto|eapply J_core; eauto]. }
  assert (Hlp : live Playing) by (unfold live; auto).
  destruct E as [Hq|Hs Hs' E1 E2 E3 E4 E5 E6 E7|s1 o1 Hq Hl Hst Hn Hp Hr|s1 o1 Hc Hl Hrr Hn Hst Hnw Hp Hr|s1 o1 Hq Hl Hl1 Hnp Hp Hr].
  - eapply J_core; [apply Hq|auto].
  - destruct HJ as (us & Es & Hlow & Hup). exists us. rewrite E1, E2, E3, E5.
    destruct E7 as [->|(Hp & H11 & ->)]; auto.
    destruct (@J_same (m_row s) (m_column s) (m_board s) (i_row HI) (m_gb s) (i_live HI (or_intror (or_introl Hs))) us (upd (m_gb s) p 10)) as (A & B & C).
    { intros q Hq. rewrite (cell_upd q 10 (i_rect HI) Hp). destruct (posb_spec p q) as [<-|]; [lia|tauto]. }
    rewrite C. auto.
  - pose proof (q_core Hq) as Hc. destruct (Hpl s1 Hl Hc) as [A B].
    assert (Es : w_state s1 Playing = s1) by (rewrite <- Hst; apply w_state_same). rewrite Es in *.
    eapply J_left; [exact A|rewrite Hst; exact Hlp|exact B| |apply Hn1; exact Hc|exact Hr].
    rewrite (c_row Hc), (c_column Hc), pos_eta. exact Hp.
  - (* right: the state may be Ready or PreFlaging, but the result only depends on the view *)
    destruct (inv_live HI Hl) as (Hleg & Hrow & Hrect & Hgood & Hptr).
    destruct HJ as (us & Es & Hlow & Hup).
    assert (Hsame : forall v w, v = 10 \/ v = 11 -> cell (m_gb s) p = w -> 10 <= w ->
       forall q, inb (m_row s) (m_column s) q -> cell (upd (m_gb s) p v) q < 10 <-> cell (m_gb s) q < 10).
    { intros v w Hv Hw Hge q Hq. rewrite (cell_upd q v Hrect Hp). destruct (posb_spec p q) as [<-|]; [lia|tauto]. }
    exists us. pose proof (right_frame Hr) as (F1 & F2 & F3 & _ & _ & _ & _ & _ & _ & F9 & _).
    rewrite F1, F2, F3, F9, (c_row Hc), (c_column Hc), (c_board Hc), (c_solved Hc).
    assert (Eg : m_gb s' = m_gb s \/ (cell (m_gb s) p = 10 /\ m_gb s' = upd (m_gb s) p 11) \/ (cell (m_gb s) p = 11 /\ m_gb s' = upd (m_gb s) p 10)).
    { pose proof (c_gb Hc) as Ec. destruct Hr as [H|fl' ce' H10 _ _ _|H11]; rewrite ?Ec, ?pos_eta in *;
       cbn [m_gb w_flaged w_ce w_flag w_gb w_right]; auto. }
    destruct Eg as [->|[[Hv ->]|[Hv ->]]]; auto.
    + destruct (@J_same (m_row s) (m_column s) (m_board s) (i_row HI) (m_gb s) (i_live HI Hl) us _ (Hsame 11 10 ltac:(auto) Hv ltac:(lia))) as (A & B & C).
      rewrite C. auto.
    + destruct (@J_same (m_row s) (m_column s) (m_board s) (i_row HI) (m_gb s) (i_live HI Hl) us _ (Hsame 10 11 ltac:(auto) Hv ltac:(lia))) as (A & B & C).
      rewrite C. auto.
  - pose proof (q_core Hq) as Hc. destruct Hl as [Hs|[Hs|Hs]].
    1,2: rewrite Hnp by congruence; exact (J_core Hc HJ).
    pose proof (q_play Hq Hs) as Hst. destruct (Hpl s1) as [A B]; [rewrite Hs; exact Hlp|exact Hc|].
    assert (Es : w_state s1 Playing = s1) by (rewrite <- Hst; apply w_state_same). rewrite Es in *.
    eapply J_chord; [exact A|rewrite Hst; exact Hlp|exact B| |apply Hn1; exact Hc|exact Hr].
    rewrite (c_row Hc), (c_column Hc), pos_eta. exact Hp.
Qed.

Lemma J_fresh up s : (0 < m_row s)%nat -> m_solved s = 0%nat -> m_gb s = mkboard (m_row s) (m_column s) 10 -> J up s.
Proof.
  intros Hr Es Eg. exists []. rewrite Es, Eg. cbn [length].
  assert (H10 : forall q, inb (m_row s) (m_column s) q -> cell (mkboard (m_row s) (m_column s) 10) q = 10) by (intros; now apply cell_mkboard).
  split; [|split].
  - symmetry. apply count_zero. intros q Hq. apply in_positions in Hq. rewrite (H10 q Hq). apply andb_false_r.
  - intros q Hq. right. exists q. split; [now constructor|]. rewrite H10; [lia|apply Hq].
  - intros _. split; [constructor|]. split; [intros ? ? []|]. split; [intros ? []|].
    intros q r Hc Hlt. apply connected_l in Hc. rewrite H10 in Hlt; [lia|apply Hc].
Qed.

(** ** an exploded mine never coexists with Win *)
Lemma adj_count_strict row column (f h : pos -> bool) p m :
  (forall q, inb row column q -> adj p q -> f q = true -> h q = true) ->
  inb row column m -> adj p m -> h m = true -> f m = false ->
  (adj_count row column f p < adj_count row column h p)%nat.
Proof.
  intros Hsub Hm Ha Hh Hf. unfold adj_count.
  rewrite (count_split (fun q => adjb p q && h q) f).
  assert (E1 : count (fun q => adjb p q && f q) (positions row column) =
               count (fun q => adjb p q && h q && f q) (positions row column)).
  { apply count_ext. intros q Hq. apply in_positions in Hq. destruct (adjb_spec p q) as [Hpq|]; auto.
    destruct (f q) eqn:E; [rewrite (Hsub q Hq Hpq E)|]; cbn [andb]; now rewrite ?andb_false_r. }
  rewrite E1.
  assert (Hpos : (0 < count (fun x => adjb p x && h x && negb (f x)) (positions row column))%nat).
  { apply Nat.ltb_lt. rewrite count_pos_existsb. apply existsb_exists. exists m. rewrite in_positions. split; auto.
    rewrite Hh, Hf. destruct (adjb_spec p m); auto. }
  revert Hpos. generalize (count (fun x => adjb p x && h x && negb (f x)) (positions row column)).
  generalize (count (fun q => adjb p q && h q && f q) (positions row column)). intros; lia.
Qed.

Lemma chord_mine_wrong_flag s x y : Inv s -> live (m_state s) -> inb (m_row s) (m_column s) (x, y) ->
  chord_ready s x y -> existsb (is_mine (m_board s)) (chord_cells s x y) = true ->
  exists r, inb (m_row s) (m_column s) r /\ cell (m_gb s) r = 11 /\ cell (m_board s) r <> -1.
Proof.
  intros HI Hlv Hp (Hrange & Hnum & _) Hm.
  apply existsb_exists in Hm as (m & Hi & Hm). apply in_chord_cells in Hi as (Hmb & Ha & H10).
  destruct (existsb (fun q => adjb (x, y) q && (cell (m_gb s) q =? 11) && negb (is_mine (m_board s) q))
              (positions (m_row s) (m_column s))) eqn:Ex.
  - apply existsb_exists in Ex as (r & Hr & E). apply in_positions in Hr.
    apply andb_true_iff in E as [E E2]. apply andb_true_iff in E as [_ E1].
    exists r. split; auto. split; [now apply Z.eqb_eq|]. apply negb_true_iff in E2. now apply Z.eqb_neq.
  - exfalso.
    assert (Hlt : (adj_count (m_row s) (m_column s) (fun q => (cell (m_gb s) q =? 11)%Z) (x, y) <
                   adj_count (m_row s) (m_column s) (is_mine (m_board s)) (x, y))%nat).
    { apply adj_count_strict with m; auto.
      - intros q Hq Hpq E. destruct (is_mine (m_board s) q) eqn:Eq; auto. exfalso.
        assert (E' : existsb (fun q => adjb (x, y) q && (cell (m_gb s) q =? 11) && negb (is_mine (m_board s) q))
              (positions (m_row s) (m_column s)) = true); [|congruence].
        apply existsb_exists. exists q. rewrite in_positions. split; auto.
        rewrite E, Eq. destruct (adjb_spec (x, y) q); auto.
      - now rewrite H10. }
    destruct (@i_live _ _ _ _ _ _ _ _ _ HI Hlv (x, y) Hp) as [?|[?|[E Hn]]]; try lia.
    destruct (i_legal HI) as [_ Hc]. destruct (Hc (x, y) Hp) as [?|E']; [contradiction|].
    rewrite E, E' in Hnum. apply Nat2Z.inj in Hnum. rewrite Hnum in Hlt. lia.
Qed.

Definition W (s : mb) : Prop := m_state s = Win -> forall q, inb (m_row s) (m_column s) q -> cell (m_gb s) q <> 15.

Lemma opened_no15 s cl g' : Inv s -> live (m_state s) ->
  (forall p, In p cl -> inb (m_row s) (m_column s) p /\ cell (m_gb s) p = 10) ->
  (forall p, In p cl -> cell (m_board s) p <> -1) ->
  refresh_board (m_board s) (m_gb s) cl = Ok g' ->
  forall q, inb (m_row s) (m_column s) q -> cell g' q <> 15.
Proof.
  intros HI Hlv Hcl Hsf Eg q Hq. destruct (inv_live HI Hlv) as (Hleg & Hrow & Hrect & Hgood & Hptr).
  destruct (@refresh_live _ _ _ Hleg Hrow (m_gb s) cl Hrect Hgood Hcl) as (g2 & E2 & Hr' & Hdec & Hob & Hom & Hs & Hl).
  rewrite Eg in E2. injection E2 as <-. destruct (Hs Hsf q Hq) as [H1 H2].
  destruct (Hdec q Hq) as [HO|HO].
  - destruct (H1 HO) as [-> Hn]. pose proof (safe_range Hleg Hrow Hq Hn). lia.
  - rewrite (H2 HO). destruct (Hgood q Hq) as [?|[?|[? Hn]]]; try lia. pose proof (safe_range Hleg Hrow Hq Hn). lia.
Qed.

Lemma W_left s x y s' o : Inv s -> m_state s = Playing -> inb (m_row s) (m_column s) (x, y) ->
  left_result s x y s' o -> W s'.
Proof.
  intros HI Hst Hp Hr. assert (Hlv : live (m_state s)) by (rewrite Hst; unfold live; auto).
  destruct Hr as [H|g' H10 Hm Eg|g' k s' H10 Hm Eg Hk1 Hk2 Ew].
  - intros E. cbn [m_state w_left] in E. congruence.
  - intros E. discriminate.
  - intros _. apply check_win_frame in Ew. cbn [m_row m_column m_gb w_ce w_solved w_gb w_left] in Ew.
    destruct Ew as (-> & -> & _ & -> & _). eapply opened_no15; [exact HI|exact Hlv| | |exact Eg]; intros p [<-|[]]; auto.
Qed.
Lemma W_chord s x y s' o : Inv s -> m_state s = Playing -> inb (m_row s) (m_column s) (x, y) ->
  chord_result s x y s' o ->
  W s' /\ (forall g', refresh_board (m_board s) (m_gb s) (chord_cells s x y) = Ok g' -> chord_ready s x y ->
     existsb (is_mine (m_board s)) (chord_cells s x y) = true -> m_state s' = Loss).
Proof.
  intros HI Hst Hp Hr. assert (Hlv : live (m_state s)) by (rewrite Hst; unfold live; auto).
  destruct (inv_live HI Hlv) as (Hleg & Hrow & Hrect & Hgood & Hptr).
  destruct Hr as [H|g' n us s' Hr Eg Hlen Hu1 Hu2 Hu3 Ew].
  { split; [intros E; cbn [m_state w_double] in E; congruence|]. intros; contradiction. }
  assert (Hcl : forall p, In p (chord_cells s x y) -> inb (m_row s) (m_column s) p /\ cell (m_gb s) p = 10)
    by (intros p Hi; now apply in_chord_cells in Hi).
  pose proof (check_win_frame Ew) as (F1 & F2 & _ & F4 & _). cbn [m_row m_column m_gb w_ce w_solved w_gb w_double w_state] in F1, F2, F4.
  destruct (existsb (is_mine (m_board s)) (chord_cells s x y)) eqn:Em.
  - assert (HL : m_state s' = Loss).
    { pose proof Ew as Ew'.
      eapply opened_inv in Ew'; [|exact HI|exact Hst|exact Hcl|exact Eg|reflexivity|reflexivity|reflexivity|reflexivity|reflexivity|reflexivity|reflexivity|cbn; now rewrite Em].
      destruct Ew' as [_ [[Hso _]|[_ (px & py & ->)]]]; [|reflexivity].
      exfalso. destruct (chord_mine_wrong_flag HI Hlv Hp Hr Em) as (r & Hrb & E11 & Hn).
      specialize (Hso r Hrb Hn). apply (shown_iff Hleg Hrow Hrect Hgood Hcl Eg Hrb) in Hso.
      destruct Hso as [?|[HO _]]; [lia|]. apply (opens_10 Hleg Hrow Hrect Hgood Hcl) in HO. lia. }
    split; [intros E; congruence|auto].
  - split; [|intros; discriminate]. intros _. rewrite F1, F2, F4.
    eapply opened_no15; [exact HI|exact Hlv|exact Hcl| |exact Eg].
    intros p Hi Hm. assert (existsb (is_mine (m_board s)) (chord_cells s x y) = true); [|congruence].
    apply existsb_exists. exists p. split; auto. now apply Z.eqb_eq.
Qed.

Lemma W_step s e p s' o : Inv s -> W s -> step s e p = Ok (s', o) -> W s'.
Proof.
  intros HI HW E. apply step_kind_ok in E; auto.
  destruct E as [Hq|Hs Hs' E1 E2 E3 E4 E5 E6 E7|s1 o1 Hq Hl Hst Hn Hp Hr|s1 o1 Hc Hl Hrr Hn Hst Hnw Hp Hr|s1 o1 Hq Hl Hl1 Hnp Hp Hr].
  - destruct Hq as [[] _ _ _ Hw]. intros E. rewrite c_row0, c_column0, c_gb0. auto.
  - intros E. congruence.
  - pose proof (q_core Hq) as Hc. eapply W_left; [eapply core_inv; [exact HI|exact Hl|exact Hc|exact Hst]|exact Hst| |exact Hr].
    rewrite (c_row Hc), (c_column Hc), pos_eta. exact Hp.
  - apply right_frame in Hr as (_ & _ & _ & F & _). intros E. congruence.
  - pose proof (q_core Hq) as Hc. destruct Hl as [Hs|[Hs|Hs]].
    1,2: rewrite Hnp by congruence; intros E; cbn [m_state w_double] in E; apply (q_win Hq) in E; congruence.
    pose proof (q_play Hq Hs) as Hst.
    eapply W_chord; [eapply core_inv; [exact HI|rewrite Hs; unfold live; auto|exact Hc|exact Hst]|exact Hst| |exact Hr].
    rewrite (c_row Hc), (c_column Hc), pos_eta. exact Hp.
Qed.
