(** * FeatReplay: the records and boards of an analysed file, as far as the feature analyses use them. *)
From Verif Require Import Base Spec BaseFacts LayMine LayMineProofs Metrics Refresh MineBoard OpProofs
  MineBoardProofs MineBoardFrame Matrix Solve SolverSpec PosProofs BoardCache StoreProofs MarkWorlds Evf EvfSpec BaseVideo ReplayProofs PropsSetters PropsGame PropsReplay PropsShow.
Open Scope Z_scope.

(** ** What the answer of a step says about the cell *)
(** [u] = 1: a flag set or removed; 2: a covered safe cell opened; 3: a chord on an open number. *)
Definition useful_at (row column : nat) (b g : board) (p : pos) (u : nat) : Prop :=
  inb row column p /\
  (u = 1%nat /\ (cell g p = 10 \/ cell g p = 11) \/
   u = 2%nat /\ cell g p = 10 /\ cell b p <> -1 \/
   u = 3%nat /\ cell g p <> 0 /\ cell g p < 8).

Lemma left_useful row column s p s' u : rect row column (m_gb s) -> rect row column (m_board s) ->
  left_click s (fst p) (snd p) = Ok (s', Some u) -> (1 <= u)%nat -> useful_at row column (m_board s) (m_gb s) p u /\ (2 <= u)%nat.
Proof.
  intros Hg Hb E Hu. unfold left_click in E. cbn [m_gb m_board w_left m_row m_column] in E. apply bind_ok in E as (w & Ew & E).
  destruct (get_inv 0 Hg Ew) as [Hp Hw]. change (gcell 0) with cell in Hw. rewrite <- surjective_pairing in Hp, Hw.
  destruct (Z.eqb_spec w 10) as [H10|H10]; cbn [negb] in E; [|injection E as <- <-; lia].
  apply bind_ok in E as (x & Ex & E). destruct (get_inv 0 Hb Ex) as [_ Hx]. change (gcell 0) with cell in Hx. rewrite <- surjective_pairing in Hx.
  assert (K : u = 2%nat -> x <> -1 -> useful_at row column (m_board s) (m_gb s) p u /\ (2 <= u)%nat).
  { intros -> Hne. split; [split; [exact Hp|]|lia]. right. left. split; auto. split; congruence. }
  destruct (Z.eqb_spec x 0) as [H0|H0].
  - apply bind_ok in E as (r & _ & E). apply bind_ok in E as (g & _ & E). apply bind_ok in E as (t & _ & E). injection E as _ <-. apply K; [auto|lia].
  - destruct (Z.eqb_spec x (-1)) as [H1|H1].
    + apply bind_ok in E as (g & _ & E). injection E as _ <-. lia.
    + apply bind_ok in E as (g & _ & E). apply bind_ok in E as (k & _ & E). apply bind_ok in E as (t & _ & E). injection E as _ <-. now apply K.
Qed.
Lemma right_useful row column s p s' u : rect row column (m_gb s) ->
  right_click s (fst p) (snd p) = Ok (s', Some u) -> (1 <= u)%nat -> useful_at row column (m_board s) (m_gb s) p u.
Proof.
  intros Hg E Hu. unfold right_click in E. cbn [m_gb m_board w_right m_row m_column] in E. apply bind_ok in E as (w & Ew & E).
  destruct (get_inv 0 Hg Ew) as [Hp Hw]. change (gcell 0) with cell in Hw. rewrite <- surjective_pairing in Hp, Hw.
  destruct (w <? 10); [injection E as <- <-; lia|]. apply bind_ok in E as (x & Ex & E).
  assert (K : u = 1%nat -> w = 10 \/ w = 11 -> useful_at row column (m_board s) (m_gb s) p u).
  { intros -> Hne. split; [exact Hp|]. left. split; auto. rewrite Hw in Hne. exact Hne. }
  destruct (negb (x =? -1)); destruct (Z.eqb_spec w 10); try destruct (Z.eqb_spec w 11);
    repeat (apply bind_ok in E as (? & _ & E)); try (injection E as _ <-; apply K; auto; fail); discriminate E.
Qed.
Lemma chord_useful row column s p s' u : rect row column (m_gb s) ->
  chording_click s (fst p) (snd p) = Ok (s', Some u) -> (1 <= u)%nat -> useful_at row column (m_board s) (m_gb s) p u.
Proof.
  intros Hg E Hu. unfold chording_click in E. cbn [m_gb m_board w_double m_row m_column] in E. apply bind_ok in E as (w & Ew & E).
  destruct (get_inv 0 Hg Ew) as [Hp Hw]. change (gcell 0) with cell in Hw. rewrite <- surjective_pairing in Hp, Hw.
  destruct (Z.eqb_spec w 0); cbn [orb] in E; [injection E as <- <-; lia|]. destruct (Z.leb_spec 8 w); [injection E as <- <-; lia|].
  apply bind_ok in E as ([[cells fl] bv] & _ & E). destruct (_ && _); [|injection E as _ <-; lia].
  repeat (apply bind_ok in E as (? & _ & E)). injection E as _ <-. split; [exact Hp|]. right. right. rewrite <- Hw. auto.
Qed.
Lemma chord_at_useful row column s p s' u : rect row column (m_gb s) ->
  chord_at s p = Ok (s', Some u) -> (1 <= u)%nat -> useful_at row column (m_board s) (m_gb s) p u.
Proof. intros Hg E Hu. unfold chord_at, ret in E. destruct (at_corner s p); [injection E as _ <-; lia|]. eapply chord_useful; eauto. Qed.
Lemma chord_at_right_useful row column s p s' u : rect row column (m_gb s) ->
  chord_at_right s p = Ok (s', Some u) -> (1 <= u)%nat -> useful_at row column (m_board s) (m_gb s) p u.
Proof.
  intros Hg E Hu. unfold chord_at_right in E. apply bind_ok in E as (r & _ & E). change (m_board s) with (m_board (w_right s r)). change (m_gb s) with (m_gb (w_right s r)).
  eapply chord_at_useful; [exact Hg|exact E|exact Hu].
Qed.
Lemma left_at_useful row column s p s' u : rect row column (m_gb s) -> rect row column (m_board s) ->
  left_at s p = Ok (s', Some u) -> (1 <= u)%nat -> useful_at row column (m_board s) (m_gb s) p u.
Proof. intros Hg Hb E Hu. unfold left_at, ret in E. destruct (at_corner s p); [injection E as _ <-; lia|]. eapply left_useful; eauto. Qed.

Lemma playing_useful row column s e p s' u : rect row column (m_gb s) -> rect row column (m_board s) ->
  step_playing s e p = Ok (s', Some u) -> (1 <= u)%nat -> useful_at row column (m_board s) (m_gb s) p u.
Proof.
  intros Hg Hb E Hu.
  assert (HR : forall w, right_click (w_mouse s w) (fst p) (snd p) = Ok (s', Some u) -> useful_at row column (m_board s) (m_gb s) p u).
  { intros w E'. refine (right_useful _ E' Hu). exact Hg. }
  destruct e; cbn [step_playing] in E; try discriminate E; try (unfold ret in E; injection E as _ <-; lia);
    try (match type of E with match m_mouse s with _ => _ end = _ => idtac end; destruct (m_mouse s); try discriminate E;
         try (unfold ret in E; injection E as _ <-; lia);
         try (refine (chord_at_useful _ E Hu); exact Hg);
         try (refine (chord_at_right_useful _ E Hu); exact Hg);
         try (refine (left_at_useful _ _ E Hu); [exact Hg|exact Hb])).
  - destruct (in_board s p); [|unfold ret in E; injection E as _ <-; lia]. apply bind_ok in E as (w & _ & E). eauto.
  - refine (chord_useful _ E Hu). exact Hg.
  - apply bind_ok in E as (w & _ & E). eauto.
  - destruct (negb (m_mid _)); [refine (chord_useful _ E Hu); exact Hg|]. unfold ret in E; injection E as _ <-; lia.
Qed.
Lemma step_useful s e p s' u : Inv s -> step s e p = Ok (s', Some u) -> (1 <= u)%nat ->
  useful_at (m_row s) (m_column s) (m_board s) (m_gb s) p u.
Proof.
  intros HI E Hu. pose proof (i_rect HI) as Hg. pose proof (proj1 (i_legal HI)) as Hb. unfold step in E.
  assert (HP : forall t, m_gb t = m_gb s -> m_board t = m_board s -> step_playing t e p = Ok (s', Some u) -> useful_at (m_row s) (m_column s) (m_board s) (m_gb s) p u).
  { intros t E1 E2 E3. rewrite <- E1, <- E2. refine (playing_useful _ _ E3 Hu); [now rewrite E1|now rewrite E2]. }
  assert (HRC : forall t, m_gb t = m_gb s -> m_board t = m_board s -> right_click t (fst p) (snd p) = Ok (s', Some u) -> useful_at (m_row s) (m_column s) (m_board s) (m_gb s) p u).
  { intros t E1 E2 E3. rewrite <- E1, <- E2. refine (right_useful _ E3 Hu). now rewrite E1. }
  destruct (m_state s) eqn:Hst; try (unfold ret in E; injection E as _ <-; lia).
  - destruct e; cbn [step_ready] in E; try discriminate E;
      try (match type of E with match m_mouse s with _ => _ end = _ => idtac end; destruct (m_mouse s); try discriminate E);
      try (unfold ret in E; injection E as _ <-; lia).
    + destruct (in_board _ p); [|unfold ret in E; injection E as _ <-; lia]. refine (HRC _ _ _ E); reflexivity.
    + apply bind_ok in E as (w & _ & E). destruct (w =? 10); [|discriminate E]. refine (HRC _ _ _ E); reflexivity.
  - destruct e; cbn [step_preflag] in E; try discriminate E; try (refine (HP _ _ _ E); reflexivity);
      try (match type of E with match m_mouse s with _ => _ end = _ => idtac end; destruct (m_mouse s); try discriminate E);
      try (unfold ret in E; injection E as _ <-; lia); try (refine (HP _ _ _ E); reflexivity).
    + destruct (at_corner s p); [unfold ret in E; injection E as _ <-; lia|]. apply bind_ok in E as (w & _ & E).
      destruct (w =? 10); refine (HP _ _ _ E); reflexivity.
    + destruct (in_board _ p); [|refine (HP _ _ _ E); reflexivity]. apply bind_ok in E as (w & _ & E). destruct (w =? 10); [refine (HRC _ _ _ E); reflexivity|].
      apply bind_ok in E as (n & _ & E). destruct (n =? 0)%nat; [|refine (HRC _ _ _ E); reflexivity].
      apply bind_ok in E as (g' & _ & E). unfold ret in E. injection E as _ <-. lia.
    + refine (HP _ _ _ E); destruct (_ && _); reflexivity.
    + apply bind_ok in E as (w & _ & E). destruct (w =? 10); [|discriminate E]. refine (HRC _ _ _ E); reflexivity.
  - refine (HP _ _ _ E); reflexivity.
Qed.

(** ** A file: positions, answers and the boards before the events *)
Notation "'fresh' M B" := (set_game_board (gboard_new M) B) (at level 10, M at level 9, B at level 9).
Definition in_game (f : video) (s : mb) : Prop :=
  Inv s /\ m_row s = v_height f /\ m_column s = v_width f /\ m_board s = v_board f.
Lemma game_in f n s : well_formed f -> game_after f n = Ok s -> in_game f s.
Proof.
  intros [Hl Hh] E. unfold game_after in E. apply bind_ok in E as (s0 & E0 & E).
  set (cs := map (fun e => Step (ve_mouse e) (cell_at f e)) (firstn n (v_events f))) in *.
  assert (Hp : played (v_height f) (v_width f) (v_board f) cs s) by (split; auto; split; [lia|]; exists s0; auto).
  destruct (C11_visible_board_never_lies Hp) as (Hr & Hc & _ & Hb & _). destruct (played_inv Hp) as (HI & _).
  split; auto. split; auto. split; auto. rewrite Hb. replace (existsb _ _) with false; auto. symmetry. unfold cs. clear.
  induction (firstn n (v_events f)) as [|e l IH]; auto.
Qed.
(** the true mines explain what is visible *)
Lemma shown_consistent f s : in_game f s -> consistent (v_height f) (v_width f) (forget (m_gb s)) (is_mine (v_board f)).
Proof.
  intros (HI & Hr & Hc & Hb) q Hq. rewrite <- Hr, <- Hc in *. rewrite <- Hb.
  pose proof (i_rect HI) as Hg. rewrite (forget_cell Hg Hq).
  pose proof (i_shape HI Hq) as Hs. pose proof (proj2 (i_legal HI) q Hq) as Hleg.
  destruct (Z.ltb_spec 10 (cell (m_gb s) q)) as [H|H].
  - split; [lia|]. split; [congruence|]. unfold number. rewrite (forget_cell Hg Hq). destruct (Z.ltb_spec 10 (cell (m_gb s) q)); lia.
  - destruct (Z.eq_dec (cell (m_gb s) q) 10) as [E|E].
    + rewrite E. split; [lia|]. split; [congruence|]. unfold number. rewrite (forget_cell Hg Hq), E. cbn. lia.
    + destruct (good_eq (i_legal HI) Hq Hs ltac:(lia)) as [E1 E2]. unfold is_mine at 1 2. rewrite E1 in *.
      split; [lia|]. split; [intros _ _; now apply Z.eqb_neq|]. intros _. destruct Hleg as [X|X]; [congruence|]. exact X.
Qed.
Lemma shown_pos f s q : in_game f s -> inb (v_height f) (v_width f) q -> 0 <= cell (m_gb s) q.
Proof.
  intros (HI & Hr & Hc & Hb) Hq. rewrite <- Hr, <- Hc in *. pose proof (i_shape HI Hq) as [[H|[H|[H H']]]|[[H _]|[H _]]]; try lia.
  rewrite H. pose proof (@safe_range _ _ _ (i_legal HI) (i_row HI) q Hq H'). lia.
Qed.
Lemma early_forget s s' : Inv s -> Inv s' -> m_row s' = m_row s -> m_column s' = m_column s ->
  m_state s = Ready \/ m_state s = PreFlaging -> m_state s' = Ready \/ m_state s' = PreFlaging -> forget (m_gb s') = forget (m_gb s).
Proof.
  intros HI HI' Hr Hc Hs Hs'. pose proof (i_rect HI) as R1. pose proof (i_rect HI') as R2. rewrite Hr, Hc in R2.
  apply (@BaseFacts.board_ext (m_row s) (m_column s)); [now apply forget_rect|now apply forget_rect|]. intros q Hq. rewrite (forget_cell R1 Hq), (forget_cell R2 Hq).
  assert (X : cell (m_gb s') q = 10 \/ cell (m_gb s') q = 11) by (apply (i_pre HI' Hs'); now rewrite Hr, Hc).
  destruct (i_pre HI Hs Hq) as [->| ->], X as [->| ->]; reflexivity.
Qed.

(** [answered f i s u]: event number [i] found the game [s] and was answered [u] *)
Definition answered (f : video) (i : nat) (s : mb) (u : nat) : Prop :=
  exists e s', nth_error (v_events f) i = Some e /\ game_after f i = Ok s /\ step s (ve_mouse e) (cell_at f e) = Ok (s', Some u).
(** the board [B] stands for the visible board of [s] *)
Definition stands_for (B : board) (s : mb) : Prop :=
  (m_state s <> Loss -> forget B = forget (m_gb s)) /\ (m_state s = Playing \/ m_state s = Win -> B = m_gb s).
Definition rec_ok (f : video) (st : list gboard) (i : nat) (r : rec) : Prop :=
  exists e s s' B, nth_error (v_events f) i = Some e /\ game_after f i = Ok s /\ game_after f (S i) = Ok s' /\
    step s (ve_mouse e) (cell_at f e) = Ok (s', Some (r_useful r)) /\
    r_mouse r = ve_mouse e /\ r_x r = ve_x e /\ r_y r = ve_y e /\ r_time r = ve_ms e /\ r_mstate r = m_mouse s' /\
    nth_error st (r_prior r) = Some (fresh (Z.to_nat (v_mine_num f)) B) /\ stands_for B s.

Section Replay.
Variables (f : video) (HWF : well_formed f).
Notation M := (Z.to_nat (v_mine_num f)).
Definition board_ok (n : nat) (g : gboard) : Prop := exists k s, (k <= n)%nat /\ game_after f k = Ok s /\ g = fresh M (m_gb s).
Definition at_rec (n : nat) (v : bv) (m : mb) : Prop :=
  same_meta f v /\ game_after f n = Ok m /\ length (b_rec v) = n /\ Forall (board_ok n) (b_stream v) /\
  (exists pre B, b_stream v = pre ++ [fresh M B] /\ stands_for B m) /\
  forall i r, nth_error (b_rec v) i = Some r -> rec_ok f (b_stream v) i r.

Lemma event_case v m e v' m' : same_meta f v -> analyse_event (v, m) (rec_of e) = Ok (v', m') ->
  exists u vv hops next, step m (ve_mouse e) (cell_at f e) = Ok (m', Some u) /\
     v' = bw_rec vv (b_rec vv ++ [snap (ve_ms e) (ve_mouse e) (ve_x e) (ve_y e) u (length (b_stream v) - 1) next m' hops]) /\
     next = (length (b_stream vv) - 1)%nat /\ b_rec vv = b_rec v /\ same_meta f vv /\
     ((u = 0%nat /\ b_stream vv = b_stream v) \/ ((1 <= u)%nat /\ b_stream vv = b_stream v ++ [fresh M (m_gb m')])).
Proof.
  intros Hm E.
  unfold analyse_event in E. apply bind_ok in E as (prior & Ep & E). apply bind_ok in E as ([[v1 m1] u] & E1 & E).
  apply bind_ok in E as (next & En & E). apply bind_ok in E as (hops & _ & E). injection E as <- <-.
  unfold usub in Ep, En. destruct (1 <=? length (b_stream v))%nat; [|discriminate]. injection Ep as <-.
  destruct (1 <=? length (b_stream v1))%nat; [|discriminate]. injection En as <-.
  cbn [rec_of r_mouse r_time r_x r_y r_useful] in E1.
  destruct (event_eq_mv (ve_mouse e)) as [Em|Em].
  - rewrite Em in E1. injection E1 as <- <- <-. exists 0%nat, v, hops. eexists. rewrite Em, step_mv.
    split; [reflexivity|]. split; [cbn [rec_of r_mouse r_time r_x r_y]; rewrite ?Em; reflexivity|]. auto 8.
  - destruct (ve_mouse e) eqn:Eme; try congruence;
    (apply bind_ok in E1 as (y & Ey & E1); apply bind_ok in E1 as (x & Ex & E1); apply bind_ok in E1 as ([m2 o] & Es & E1);
     unfold udiv in Ex, Ey; destruct (Z.to_nat (v_pix (b_meta v)) =? 0)%nat; [discriminate|];
     injection Ex as <-; injection Ey as <-; destruct Hm as (M1 & M2 & M3 & M4 & M5 & M6 & M7);
     destruct o as [u'|]; [|discriminate]; rewrite M3 in Es;
     destruct (Nat.leb_spec 1 u') as [Hu|Hu];
     [ injection E1 as E1a E1b E1c; subst m2 u'; exists u, v1, hops; eexists;
       split; [exact Es|]; split; [cbn [rec_of r_mouse r_time r_x r_y]; rewrite ?Eme; reflexivity|]; split; [reflexivity|];
       rewrite M7 in E1a; destruct (m_state m); subst v1; (split; [reflexivity|]; split; [repeat split; assumption|]; right; split; [exact Hu|]; reflexivity)
     | injection E1 as E1a E1b E1c; subst v1 m2 u'; exists u, v, hops; eexists;
       split; [exact Es|]; split; [cbn [rec_of r_mouse r_time r_x r_y]; rewrite ?Eme; reflexivity|]; split; [reflexivity|];
       split; [reflexivity|]; split; [repeat split; assumption|]; left; split; [lia|reflexivity] ]).
Qed.
Lemma board_ok_le n n' g : (n <= n')%nat -> board_ok n g -> board_ok n' g.
Proof. intros H (k & s & Hk & X). exists k, s. split; [lia|exact X]. Qed.
Lemma rec_ok_grow st st' i r : rec_ok f st i r -> rec_ok f (st ++ st') i r.
Proof.
  intros (e & s & s' & B & H1 & H2 & H3 & H4 & H5 & H6 & H7 & H8 & H9 & H10 & H11). exists e, s, s', B. do 9 (split; [assumption|]).
  split; auto. rewrite nth_error_app1; auto. apply nth_error_Some. congruence.
Qed.
Lemma rec_event n v m e v' m' : at_rec n v m -> nth_error (v_events f) n = Some e ->
  analyse_event (v, m) (rec_of e) = Ok (v', m') -> at_rec (S n) v' m'.
Proof.
  intros (Hm & Hg & Hlen & Hall & (pre & B & Hst & HB) & Hrec) He E.
  destruct (event_case Hm E) as (u & vv & hops & next & Es & -> & -> & Hvr & Hm' & Hcase). clear E.
  assert (Hg' : game_after f (S n) = Ok m') by (rewrite (game_after_next He Hg), Es; reflexivity).
  pose proof (game_in HWF Hg) as G. pose proof (game_in HWF Hg') as G'. pose proof (proj1 G) as HI. pose proof (proj1 G') as HI'.
  assert (Hlast : exists pre B, b_stream vv = pre ++ [fresh M B] /\ stands_for B m').
  { destruct Hcase as [[-> ->]|[Hu ->]]; [|exists (b_stream v), (m_gb m'); split; auto; split; auto].
    exists pre, B. split; auto. destruct (m_state m') eqn:Em'.
    1,2: assert (Hs : m_state m = Ready \/ m_state m = PreFlaging) by
        (destruct (m_state m) eqn:Em; auto; exfalso; unfold step in Es; rewrite Em in Es;
          [apply (step_playing_late Em) in Es as [L1 L2]; congruence|unfold ret in Es; injection Es as <-; congruence..]).
    1,2: split; [intros _; rewrite (proj1 HB) by (destruct Hs as [-> | ->]; discriminate); symmetry;
                 apply early_forget; auto; [destruct G as (_ & R1 & _), G' as (_ & R2 & _); congruence|destruct G as (_ & _ & R1 & _), G' as (_ & _ & R2 & _); congruence]
                |rewrite Em'; intros [X|X]; discriminate X].
    - destruct (step_zero HI Es (or_introl Em')) as [Hs0 Eg]. pose proof (proj2 HB Hs0) as X. subst B. rewrite <- Eg. split; auto.
    - split; [congruence|]. rewrite Em'. intros [X|X]; discriminate X.
    - destruct (step_zero HI Es (or_intror Em')) as [Hs0 Eg]. pose proof (proj2 HB Hs0) as X. subst B. rewrite <- Eg. split; auto.
    - destruct (i_nodisp HI' Em'). }
  assert (Hgrow : exists x, b_stream vv = b_stream v ++ x).
  { destruct Hcase as [[_ ->]|[_ ->]]; [exists []; now rewrite app_nil_r|eauto]. }
  split; [exact Hm'|]. split; auto. cbn [b_rec bw_rec b_stream]. rewrite Hvr.
  split; [rewrite app_length; cbn [length]; lia|]. split; [|split; [exact Hlast|]].
  - destruct Hcase as [[_ ->]|[_ ->]]; [|apply Forall_app; split].
    1,2: revert Hall; apply Forall_impl; intros g; apply board_ok_le; lia.
    constructor; [|constructor]. exists (S n), m'. auto.
  - intros i r Hi. destruct (nth_error_snoc Hi) as [Hi'|[-> ->]].
    + destruct Hgrow as (x & ->). apply rec_ok_grow. auto.
    + rewrite Hlen. exists e, m, m', B. cbn [snap r_useful r_mouse r_x r_y r_time r_mstate r_prior]. do 9 (split; [auto|]). split; auto.
      destruct Hgrow as (x & ->). rewrite Hst. rewrite app_length, <- app_assoc. cbn [length].
      replace (length pre + 1 - 1)%nat with (length pre) by lia. rewrite nth_error_app2 by lia. now rewrite Nat.sub_diag.
Qed.
Lemma rec_events : forall es n v m v' m', skipn n (v_events f) = es -> at_rec n v m ->
  foldM analyse_event (map rec_of es) (v, m) = Ok (v', m') -> at_rec (n + length es) v' m'.
Proof.
  induction es as [|e es IH]; intros n v m v' m' Hs Hat E.
  - injection E as <- <-. now rewrite Nat.add_0_r.
  - cbn [map foldM] in E. apply bind_ok in E as ([v1 m1] & E1 & E).
    assert (He : nth_error (v_events f) n = Some e).
    { clear - Hs. revert n Hs. induction (v_events f) as [|x l IH]; intros [|n] Hs; cbn in *; try discriminate; [now injection Hs as -> _|auto]. }
    assert (Hs' : skipn (S n) (v_events f) = es).
    { clear - Hs. revert n Hs. induction (v_events f) as [|x l IH]; intros [|n] Hs; cbn in *; try discriminate; [now injection Hs as _ ->|auto]. }
    replace (n + length (e :: es))%nat with (S n + length es)%nat by (cbn [length]; lia).
    eapply IH; [exact Hs'| |exact E]. eapply rec_event; eauto.
Qed.
Theorem recs_ok raw now v : analyse (of_file f raw now) = Ok v ->
  v_pix (b_meta v) = v_pix f /\ length (b_rec v) = length (v_events f) /\
  Forall (board_ok (length (v_events f))) (b_stream v) /\
  forall i r, nth_error (b_rec v) i = Some r -> rec_ok f (b_stream v) i r.
Proof.
  pose proof HWF as [Hl Hh]. unfold analyse. cbn [b_can of_file negb]. intros E. apply bind_ok in E as (m0 & E0 & E).
  apply bind_ok in E as ([v1 m1] & E1 & E).
  assert (Hat : at_rec (0 + length (v_events f)) v1 m1).
  { eapply rec_events; [reflexivity| |exact E1]. cbn [b_meta of_file vw_events v_board] in E0.
    assert (Hg0 : game_after f 0 = Ok m0) by (unfold game_after; rewrite E0; reflexivity).
    assert (Hgb : m_gb m0 = mkboard (v_height f) (v_width f) 10).
    { unfold mb_new, get_row, get_column in E0. rewrite (ncolsR_ok (proj1 Hl) Hh), (nrows_ok (proj1 Hl)) in E0. now injection E0 as <-. }
    split; [repeat split|]. split; [exact Hg0|]. split; [reflexivity|]. cbn [bw_rec b_stream b_rec bw_stream of_file app b_meta v_mine_num v_height v_width vw_events]. rewrite <- Hgb.
    split; [|split; [|intros [|i] r Hi; discriminate Hi]].
    - constructor; [|constructor]. exists 0%nat, m0. auto.
    - exists [], (m_gb m0). split; [reflexivity|]. split; auto. }
  cbn [Nat.add] in Hat. unfold cal_static_params in E. apply bind_ok in E as (x1 & _ & E). apply bind_ok in E as (x2 & _ & E).
  apply bind_ok in E as (x3 & _ & E). injection E as <-. destruct Hat as ((_ & _ & Hp & _) & _ & H1 & H2 & _ & H3).
  split; [exact Hp|]. split; [exact H1|]. split; [exact H2|exact H3].
Qed.
End Replay.
