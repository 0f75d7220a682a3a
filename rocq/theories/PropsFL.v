(** * PropsFL: the flag-and-chord runs found by [super_fl_local] (C73). *)
From Verif Require Import Base Spec BaseFacts LayMine Metrics MineBoard MineBoardProofs Matrix Solve SolverSpec MatrixProofs PosProofs BoardCache LayMineProofs StoreProofs Utils UtilsProofs
  Evf EvfSpec BaseVideo ReplayProofs PropsSetters PropsGame PropsReplay PropsShow Features FeatReplay FeatProofs FeatSem PropsFeatures PropsTraces FLRun.
Open Scope Z_scope.

(** ** What the analysis looks at *)
(** [B] is the visible board after the newest event before [i] that took effect (the covered board if there is none).
    While the game runs this is the visible board; before the first opening it can miss a removed flag. *)
Definition last_board (f : video) (i : nat) (B : board) : Prop :=
  exists k s, (k <= i)%nat /\ game_after f k = Ok s /\ B = m_gb s /\
    (k = 0%nat \/ exists j e s' u, k = S j /\ event_at f j e s' u /\ (1 <= u)%nat) /\
    (forall j e s' u, (k <= j < i)%nat -> event_at f j e s' u -> u = 0%nat).
(** a double click at [p] opens something, and none of the four neighbours would open more *)
Definition most (row column : nat) (g : board) (p : pos) : Prop :=
  forall q, inb row column q -> ortho p q -> chord_gain row column g q <= chord_gain row column g p.
Definition best_chord (row column : nat) (g : board) (p : pos) : Prop := 0 < chord_gain row column g p /\ most row column g p.
(** the kinds of events: a move; a flag set; a good double click; one that ends a run (a double click that is not good, a
    release after a left press or of a double click without effect); anything else *)
Definition is_flag (f : video) (i : nat) (e : vev) (u : nat) : Prop := ve_mouse e = e_rc /\ u = 1%nat /\ exists B, last_board f i B /\ cell B (cell_at f e) = 10.
Definition is_good (f : video) (s : mb) (e : vev) (u : nat) : Prop := u = 3%nat /\ best_chord (v_height f) (v_width f) (m_gb s) (cell_at f e).
Definition is_stop (f : video) (s : mb) (e : vev) (u : nat) : Prop :=
  u = 3%nat /\ ~ best_chord (v_height f) (v_width f) (m_gb s) (cell_at f e) \/
  u <> 3%nat /\ (ve_mouse e = e_lr /\ (m_mouse s = DownUp \/ m_mouse s = Chording) \/ ve_mouse e = e_rr /\ m_mouse s = Chording).
Definition is_kind (f : video) (i : nat) (k : kind) : Prop :=
  exists e s u, event_at f i e s u /\
    match k with
    | KMove => ve_mouse e = e_mv
    | KFlag => is_flag f i e u
    | KGood => is_good f s e u
    | KStop => is_stop f s e u
    | KOther => ve_mouse e <> e_mv /\ ~ is_flag f i e u /\ ~ is_good f s e u /\ ~ is_stop f s e u
    end.
(** the newest event before [i] that is no move; the first event of the file if there is none *)
Definition previous (f : video) (i j : nat) : Prop :=
  (j < i)%nat /\ (j = 0%nat \/ exists e, nth_error (v_events f) j = Some e /\ ve_mouse e <> e_mv) /\
  forall k e, (j < k < i)%nat -> nth_error (v_events f) k = Some e -> ve_mouse e = e_mv.
(** more than four cells away from it *)
Definition far_cells (p q : pos) : Prop :=
  16 < (Z.of_nat (fst p) - Z.of_nat (fst q)) * (Z.of_nat (fst p) - Z.of_nat (fst q)) + (Z.of_nat (snd p) - Z.of_nat (snd q)) * (Z.of_nat (snd p) - Z.of_nat (snd q)).
Definition jumps (f : video) (i : nat) : Prop :=
  exists j e e', previous f i j /\ nth_error (v_events f) i = Some e /\ nth_error (v_events f) j = Some e' /\ far_cells (cell_at f e) (cell_at f e').
(** events after the first that make the analysis crash: a right press outside the board; a double click in the last column
    that opens at least as much as one at its three neighbours would *)
Definition crashes (f : video) (i : nat) : Prop :=
  (1 <= i)%nat /\ exists e s u, event_at f i e s u /\
    (ve_mouse e = e_rc /\ ~ inb (v_height f) (v_width f) (cell_at f e) \/
     u = 3%nat /\ (snd (cell_at f e) + 1 = v_width f)%nat /\ most (v_height f) (v_width f) (m_gb s) (cell_at f e)).

(** ** The recorded boards *)
Section Prior.
Variables (f : video) (HWF : well_formed f).
Notation M := (Z.to_nat (v_mine_num f)).
Definition at_last (n : nat) (v : bv) (m : mb) : Prop :=
  same_meta f v /\ game_after f n = Ok m /\ length (b_rec v) = n /\ (exists pre B, b_stream v = pre ++ [fresh M B] /\ last_board f n B) /\
  forall i r, nth_error (b_rec v) i = Some r -> exists B, nth_error (b_stream v) (r_prior r) = Some (fresh M B) /\ last_board f i B.
Lemma last_event n v m e v' m' : at_last n v m -> nth_error (v_events f) n = Some e ->
  analyse_event (v, m) (rec_of e) = Ok (v', m') -> at_last (S n) v' m'.
Proof.
  intros (Hm & Hg & Hlen & (pre & B & Hst & HB) & Hrec) He E.
  destruct (event_case Hm E) as (u & vv & hops & next & Es & -> & -> & Hvr & Hm' & Hcase). clear E.
  assert (Hg' : game_after f (S n) = Ok m') by (rewrite (game_after_next He Hg), Es; reflexivity).
  assert (Hev : event_at f n e m u) by (split; auto; split; auto; eauto).
  assert (Hgrow : exists x, b_stream vv = b_stream v ++ x).
  { destruct Hcase as [[_ ->]|[_ ->]]; [exists []; now rewrite app_nil_r|eauto]. }
  split; [exact Hm'|]. split; auto. cbn [b_rec bw_rec b_stream]. rewrite Hvr. split; [rewrite app_length; cbn [length]; lia|]. split.
  - destruct Hcase as [[-> ->]|[Hu ->]].
    + exists pre, B. split; auto. destruct HB as (k & s & H1 & H2 & H3 & H4 & H5). exists k, s. split; [lia|]. do 3 (split; auto). intros j e1 s1 u1 Hj Hj1.
      destruct (Nat.eq_dec j n) as [->|]; [|eapply H5; eauto; lia]. now destruct (event_unique Hev Hj1) as (_ & _ & ->).
    + exists (b_stream v), (m_gb m'). split; auto. exists (S n), m'. split; auto. split; auto. split; auto. split; [|intros; lia]. right. exists n, e, m, u. auto.
  - intros i r Hi. destruct (nth_error_snoc Hi) as [Hi'|[-> ->]].
    + destruct Hgrow as (x & ->). destruct (Hrec i r Hi') as (B' & E1 & E2). exists B'. split; auto. rewrite nth_error_app1; auto. apply nth_error_Some. congruence.
    + rewrite Hlen. exists B. cbn [snap r_prior]. split; auto.
      destruct Hgrow as (x & ->). rewrite Hst. rewrite app_length, <- app_assoc. cbn [length].
      replace (length pre + 1 - 1)%nat with (length pre) by lia. rewrite nth_error_app2 by lia. now rewrite Nat.sub_diag.
Qed.
Lemma last_events : forall es n v m v' m', skipn n (v_events f) = es -> at_last n v m ->
  foldM analyse_event (map rec_of es) (v, m) = Ok (v', m') -> at_last (n + length es) v' m'.
Proof.
  induction es as [|e es IH]; intros n v m v' m' Hs Hat E.
  - injection E as <- <-. now rewrite Nat.add_0_r.
  - cbn [map foldM] in E. apply bind_ok in E as ([v1 m1] & E1 & E).
    assert (He : nth_error (v_events f) n = Some e).
    { clear - Hs. revert n Hs. induction (v_events f) as [|x l IH]; intros [|n] Hs; cbn in *; try discriminate; [now injection Hs as -> _|auto]. }
    assert (Hs' : skipn (S n) (v_events f) = es).
    { clear - Hs. revert n Hs. induction (v_events f) as [|x l IH]; intros [|n] Hs; cbn in *; try discriminate; [now injection Hs as _ ->|auto]. }
    replace (n + length (e :: es))%nat with (S n + length es)%nat by (cbn [length]; lia).
    eapply IH; [exact Hs'| |exact E]. eapply last_event; eauto.
Qed.
Lemma last_ok raw now v : analyse (of_file f raw now) = Ok v ->
  forall i r, nth_error (b_rec v) i = Some r -> exists B, nth_error (b_stream v) (r_prior r) = Some (fresh M B) /\ last_board f i B.
Proof.
  pose proof HWF as [Hl Hh]. unfold analyse. cbn [b_can of_file negb]. intros E. apply bind_ok in E as (m0 & E0 & E).
  apply bind_ok in E as ([v1 m1] & E1 & E).
  assert (Hat : at_last (0 + length (v_events f)) v1 m1).
  { eapply last_events; [reflexivity| |exact E1]. cbn [b_meta of_file vw_events v_board] in E0.
    assert (Hg0 : game_after f 0 = Ok m0) by (unfold game_after; rewrite E0; reflexivity).
    assert (Hgb : m_gb m0 = mkboard (v_height f) (v_width f) 10).
    { unfold mb_new, get_row, get_column in E0. rewrite (ncolsR_ok (proj1 Hl) Hh), (nrows_ok (proj1 Hl)) in E0. now injection E0 as <-. }
    split; [repeat split|]. split; [exact Hg0|]. split; [reflexivity|]. cbn [bw_rec b_stream b_rec bw_stream of_file app b_meta v_mine_num v_height v_width vw_events]. rewrite <- Hgb.
    split; [|intros [|i] r Hi; discriminate Hi].
    exists [], (m_gb m0). split; [reflexivity|]. exists 0%nat, m0. split; [lia|]. split; auto. split; auto. split; auto. intros; lia. }
  cbn [Nat.add] in Hat. unfold cal_static_params in E. apply bind_ok in E as (x1 & _ & E). apply bind_ok in E as (x2 & _ & E).
  apply bind_ok in E as (x3 & _ & E). injection E as <-. destruct Hat as (_ & _ & _ & _ & H). exact H.
Qed.
End Prior.

Lemma last_board_unique f i B B' : last_board f i B -> last_board f i B' -> (forall j, (j < i)%nat -> exists e s u, event_at f j e s u) -> B' = B.
Proof.
  intros (k & s & H1 & H2 & -> & H4 & H5) (k' & s' & H1' & H2' & -> & H4' & H5') Hall.
  assert (k = k') as <-; [|rewrite H2 in H2'; now injection H2' as ->].
  assert (W : forall a b sa, (a < b)%nat -> (b = 0%nat \/ exists j e s' u, b = S j /\ event_at f j e s' u /\ (1 <= u)%nat) -> (b <= i)%nat ->
     (forall j e s' u, (a <= j < i)%nat -> event_at f j e s' u -> u = 0%nat) -> game_after f a = Ok sa -> False).
  { intros a b sa Hab [->|(j & e & s0 & u & -> & Hev & Hu)] Hb Hz _; [lia|]. pose proof (Hz j e s0 u ltac:(lia) Hev). lia. }
  destruct (Nat.lt_trichotomy k k') as [H|[H|H]]; auto; exfalso; eapply W; eauto.
Qed.

(** ** Events with kinds *)
Section Connect.
Variables (f : video) (raw : list Z) (now : Z) (v : bv) (HP : playable f) (EA : analyse (of_file f raw now) = Ok v).
Let HWF : well_formed f := proj1 HP.
Notation row := (v_height f). Notation column := (v_width f).
Notation N := (length (b_rec v)).

Lemma playing_three i e s : event_at f i e s 3 -> m_state s = Playing.
Proof.
  intros Hev. destruct (event_inb HP Hev ltac:(lia)) as (HL & G & Hinb & Hc). pose proof Hev as (_ & _ & s' & Est).
  assert (H8 : cell (m_gb s) (cell_at f e) < 8) by (destruct Hc as [(X & _)|[(X & _)|(_ & _ & X)]]; [lia|lia|auto]).
  destruct G as (HI & R1 & R2 & R3). rewrite <- R1, <- R2 in Hinb. unfold step, ret in Est.
  destruct (m_state s) eqn:Es; auto; try (injection Est as _ X; lia); exfalso; destruct (i_pre HI ltac:(auto) Hinb); lia.
Qed.

(** the mouse state after the previous event *)
Lemma previous_state i j r s : (i < N)%nat -> previous f i j -> nth_error (b_rec v) j = Some r -> game_after f i = Ok s -> r_mstate r = m_mouse s.
Proof.
  intros Hi (Hj & _ & Hmv) Er Hs. destruct (rec_at HWF EA Er) as (e & s1 & s2 & B & _ & _ & H2 & _ & _ & _ & _ & _ & H9 & _). rewrite H9.
  assert (K : forall d t, (S j + d <= i)%nat -> game_after f (S j + d) = Ok t -> m_mouse t = m_mouse s2).
  { induction d as [|d IH]; intros t Hd Ht; [rewrite Nat.add_0_r in Ht; rewrite H2 in Ht; now injection Ht as <-|].
    destruct (event_rec HP EA (i := S j + d) ltac:(lia)) as (r' & e' & s' & u' & _ & _ & Hev & _). pose proof Hev as (He' & Hs' & _).
    rewrite <- (IH s' ltac:(lia) Hs'). replace (S j + S d)%nat with (S (S j + d)) in Ht by lia. rewrite (game_after_next He' Hs') in Ht.
    rewrite (Hmv (S j + d)%nat e' ltac:(lia) He'), step_mv in Ht. cbn in Ht. now injection Ht as <-. }
  symmetry. apply (K (i - S j)%nat); [lia|]. now replace (S j + (i - S j))%nat with i by lia.
Qed.
Lemma previous_unique i j j' : (i <= N)%nat -> previous f i j -> previous f i j' -> j = j'.
Proof.
  assert (W : forall a b, (i <= N)%nat -> previous f i a -> previous f i b -> ~ (a < b)%nat).
  { intros a b Hi (A1 & A2 & A3) (B1 & B2 & B3) H. destruct B2 as [->|(e & He & Hm)]; [lia|]. apply Hm. apply (A3 b e); [lia|auto]. }
  intros Hi H1 H2. pose proof (W _ _ Hi H1 H2). pose proof (W _ _ Hi H2 H1). lia.
Qed.
Lemma previous_next i j e : nth_error (v_events f) i = Some e -> previous f i j -> previous f (S i) (if event_eqb (ve_mouse e) e_mv then j else i).
Proof.
  intros He (H1 & H2 & H3). destruct (event_eqb (ve_mouse e) e_mv) eqn:Em.
  - apply event_eqb_iff in Em. split; [lia|]. split; auto. intros k e' Hk He'. destruct (Nat.eq_dec k i) as [->|]; [congruence|]. apply (H3 k); [lia|auto].
  - split; [lia|]. split; [right; exists e; split; auto; intros X; apply event_eqb_iff in X; congruence|]. intros k e' Hk. lia.
Qed.

Variables (K : nat -> kind) (J : nat -> bool).
Hypothesis (HK : forall i, (i < length (v_events f))%nat -> is_kind f i (K i)) (HJ : forall i, (i < length (v_events f))%nat -> (J i = true <-> jumps f i)).
Lemma kind_at i e s u : event_at f i e s u ->
    match K i with
    | KMove => ve_mouse e = e_mv
    | KFlag => is_flag f i e u
    | KGood => is_good f s e u
    | KStop => is_stop f s e u
    | KOther => ve_mouse e <> e_mv /\ ~ is_flag f i e u /\ ~ is_good f s e u /\ ~ is_stop f s e u
    end.
Proof.
  intros Hev. assert (Hi : (i < length (v_events f))%nat) by (apply nth_error_Some; destruct Hev as (-> & _); discriminate).
  destruct (HK Hi) as (e' & s' & u' & Hev' & Hk). destruct (event_unique Hev Hev') as (-> & -> & ->). exact Hk.
Qed.

Definition out_of (c : option (nat * Z)) (cm : list (list comment)) : list (list comment) :=
  match c with Some (a, n) => note cm a [SuperFL n] | None => cm end.
Lemma fl_event_ok gs cm s li i : boards v gs -> (1 <= i < N)%nat -> previous f i li -> ~ crashes f i -> (fl_anchor s < length cm)%nat -> length cm = N ->
  exists li', previous f (S i) li' /\
  fl_event v gs (s, li, cm) i = Ok (fst (pstep i (K i) (J i) s), li', out_of (snd (pstep i (K i) (J i) s)) cm).
Proof.
  intros Hg Hi Hpr Hcr Han Hcm. destruct (event_rec HP EA (proj2 Hi)) as (r & e & m & u & Er & Er' & Hev & Han' & Hu & Hmo & Hx & Hy & Hpl).
  pose proof Hev as (He & Hs & _). pose proof Hpr as (Hlt & _).
  destruct (event_rec HP EA (i := li) ltac:(lia)) as (rl & el & ml & ul & Erl & Erl' & Hevl & _ & _ & _ & _ & _ & Hpll).
  pose proof (previous_state (proj2 Hi) Hpr Erl Hs) as Hms. pose proof (kind_at Hev) as Hk. pose proof (previous_next He Hpr) as Hnx.
  destruct (last_ok HWF EA Er) as (B & HB & HlB).
  destruct (rec_at HWF EA Er) as (e0 & m0 & m0' & B0 & X1 & X2 & _ & _ & _ & _ & _ & _ & _ & HB0 & Hsf). rewrite He in X1. injection X1 as <-. rewrite Hs in X2. injection X2 as <-.
  rewrite HB in HB0. injection HB0 as <- _.
  assert (Hgb : exists pb, vget gs (r_prior r) = Ok pb /\ gb_board (pb_g pb) = B).
  { destruct (boards_get (r_prior r) Hg) as [(g0 & pb & E0 & E1 & Hpb)|[E0 _]]; [|congruence]. exists pb. unfold vget. rewrite E1. split; auto. rewrite (ok_pb_board Hpb).
    rewrite HB in E0. injection E0 as <-. reflexivity. }
  destruct Hgb as (pb & Egs & Epb).
  assert (HBr : rect row column B). { destruct HlB as (k & sk & _ & Hk' & -> & _). destruct (game_in HWF Hk') as (HI & <- & <- & _). apply (i_rect HI). }
  assert (HlB' : forall B', last_board f i B' -> B' = B).
  { intros B' HB'. eapply last_board_unique; eauto. intros j Hj. destruct (event_rec HP EA (i := j) ltac:(lia)) as (r1 & e1 & s1 & u1 & _ & _ & Hj1 & _). eauto. }
  assert (Hju : J i = (16 <? (Z.of_nat (fst (cell_at f e)) - Z.of_nat (fst (cell_at f el))) * (Z.of_nat (fst (cell_at f e)) - Z.of_nat (fst (cell_at f el))) +
       (Z.of_nat (snd (cell_at f e)) - Z.of_nat (snd (cell_at f el))) * (Z.of_nat (snd (cell_at f e)) - Z.of_nat (snd (cell_at f el))))).
  { pose proof (HJ (i := i) ltac:(rewrite <- (events_len HP EA); lia)) as Hj. apply eq_true_iff_eq. rewrite Hj, Z.ltb_lt. split.
    - intros (j & e1 & e2 & P1 & P2 & P3 & P4). rewrite He in P2. injection P2 as <-. assert (j = li) as -> by (eapply previous_unique; [|exact P1|exact Hpr]; lia).
      destruct Hevl as (Hel & _). rewrite Hel in P3. injection P3 as <-. exact P4.
    - intros H. exists li, e, el. split; auto. split; auto. split; [apply Hevl|]. exact H. }
  unfold fl_event. rewrite Er'. cbn [bind]. rewrite Hmo. destruct (event_eqb (ve_mouse e) e_mv) eqn:Emv.
  { exists li. split; auto. assert (EK : K i = KMove); [|rewrite EK; reflexivity].
    apply event_eqb_iff in Emv. destruct Hev as (_ & _ & t & Est). rewrite Emv, step_mv in Est. injection Est as _ <-.
    destruct (K i); auto; exfalso.
    - destruct Hk as (_ & X & _). discriminate X.
    - destruct Hk as (X & _). discriminate X.
    - destruct Hk as [(X & _)|(_ & [(X & _)|(X & _)])]; [discriminate X|rewrite Emv in X; discriminate X|rewrite Emv in X; discriminate X].
    - destruct Hk as (X & _). auto. }
  assert (Hnm : ve_mouse e <> e_mv) by (intros X; apply event_eqb_iff in X; congruence).
  exists i. split; auto. rewrite Hpl. cbn [bind]. rewrite Erl'. cbn [bind]. rewrite Hpll. cbn [bind].
  set (p := cell_at f e) in *. set (q := cell_at f el) in *. rewrite Egs. cbn [bind]. rewrite Epb, Hu, Hms.
  (* the board seen by the flag test *)
  assert (Hflag : exists fl : bool, (if event_eqb (ve_mouse e) e_rc then let* w := get B (fst p) (snd p) in Ok ((w =? 10) && (u =? 1)%nat) else Ok false) = Ok fl /\ (fl = true <-> is_flag f i e u)).
  { destruct (event_eqb (ve_mouse e) e_rc) eqn:Erc.
    - apply event_eqb_iff in Erc. assert (Hinb : inb row column p).
      { destruct (inb_dec row column p) as [H|H]; auto. exfalso. apply Hcr. split; [lia|]. exists e, m, u. split; auto. }
      rewrite (get_ok HBr) by (rewrite <- surjective_pairing; auto). cbn [bind]. rewrite <- surjective_pairing. eexists. split; [reflexivity|].
      rewrite andb_true_iff, Z.eqb_eq, Nat.eqb_eq. split.
      + intros [H1 H2]. split; auto. split; auto. exists B. auto.
      + intros (_ & H2 & B' & H3 & H4). rewrite (HlB' B' H3) in H4. auto.
    - exists false. split; auto. split; [discriminate|]. intros (X & _). apply event_eqb_iff in X. congruence. }
  destruct Hflag as (fl & -> & Hfl). cbn [bind].
  (* the chord test *)
  assert (Hch : u = 3%nat -> exists g : bool, is_good_chording B p = Ok g /\ (g = true <-> is_good f m e u)).
  { intros ->. pose proof (playing_three Hev) as Hpm. assert (B = m_gb m) as -> by (apply (proj2 Hsf); auto).
    destruct (event_inb HP Hev ltac:(lia)) as (_ & _ & Hinb & _). change (inb row column p) in Hinb.
    destruct (Nat.eq_dec (snd p + 1) column) as [Hc|Hc].
    - destruct (good_chording_last HBr Hinb Hc) as [[(q' & Q1 & Q2 & Q3) ->]|[Hm _]].
      + exists false. split; auto. split; [discriminate|]. intros (_ & _ & X). specialize (X q' Q1 Q2). fold p in X. lia.
      + exfalso. apply Hcr. split; [lia|]. exists e, m, 3%nat. split; auto.
    - destruct (good_chording_ok HBr Hinb ltac:(destruct Hinb; lia)) as (g & -> & Hgd). exists g. split; auto. rewrite Hgd. unfold is_good, best_chord, most. tauto. }
  set (rel := event_eqb (ve_mouse e) e_lr && (is_ms (m_mouse m) DownUp || is_ms (m_mouse m) Chording) || event_eqb (ve_mouse e) e_rr && is_ms (m_mouse m) Chording).
  assert (Hrel : rel = true <-> ve_mouse e = e_lr /\ (m_mouse m = DownUp \/ m_mouse m = Chording) \/ ve_mouse e = e_rr /\ m_mouse m = Chording).
  { unfold rel. rewrite orb_true_iff, !andb_true_iff, !event_eqb_iff, orb_true_iff. assert (Hi1 : is_ms (m_mouse m) DownUp = true <-> m_mouse m = DownUp) by (destruct (m_mouse m); cbn; split; congruence).
    assert (Hi2 : is_ms (m_mouse m) Chording = true <-> m_mouse m = Chording) by (destruct (m_mouse m); cbn; split; congruence). tauto. }
  assert (Hp1 : (if fl then Ok (fl_flag i s) else if (u =? 3)%nat then let* good := is_good_chording B p in Ok (if good : bool then fl_good s else fl_stop s) else if rel then Ok (fl_stop s) else Ok s) = Ok (p1 i (K i) s)).
  { destruct fl.
    - pose proof (proj1 Hfl eq_refl) as F. pose proof F as (F1 & F2 & _). assert (K i = KFlag) as ->; [|reflexivity]. destruct (K i); auto; exfalso; [auto|destruct Hk; lia| |tauto].
      destruct Hk as [[X _]|[_ [(X & _)|(X & _)]]]; [lia|rewrite F1 in X; discriminate X|rewrite F1 in X; discriminate X].
    - assert (NF : ~ is_flag f i e u) by (intros X; apply Hfl in X; discriminate X).
      destruct (Nat.eqb_spec u 3) as [H3|H3].
      + destruct (Hch H3) as (g & -> & Hgd). cbn [bind]. destruct g.
        * pose proof (proj1 Hgd eq_refl) as F. assert (K i = KGood) as ->; [|reflexivity]. destruct (K i); auto; exfalso; [auto|auto| |tauto].
          destruct Hk as [[_ X]|[X _]]; [apply X; apply F|auto].
        * assert (NG : ~ is_good f m e u) by (intros X; apply Hgd in X; discriminate X). assert (K i = KStop) as ->; [|reflexivity]. destruct (K i); auto; exfalso; auto.
          destruct Hk as (_ & _ & _ & X). apply X. left. split; auto. intros Y. apply NG. split; auto.
      + assert (NG : ~ is_good f m e u) by (intros [X _]; auto). destruct rel.
        * assert (K i = KStop) as ->; [|reflexivity]. destruct (K i); auto; exfalso; auto. destruct Hk as (_ & _ & _ & X). apply X. right. split; auto. now apply Hrel.
        * assert (NS : ~ is_stop f m e u). { intros [[X _]|[_ X]]; [auto|]. apply Hrel in X. discriminate X. }
          assert (K i = KOther) as ->; [|reflexivity]. destruct (K i); auto; exfalso; auto. }
  rewrite Hp1. cbn [bind]. cbv zeta. rewrite <- Hju.
  assert (EP : pstep i (K i) (J i) s = (let s0 := p2 i (K i) (J i) s in match fl_st s0 with Finish => (FL NotStart (fl_anchor s0) (fl_counter s0) (fl_last_rc s0), Some (fl_anchor s0, fl_counter s0)) | _ => (s0, None) end)).
  { destruct (K i); try reflexivity. congruence. }
  rewrite EP. cbv zeta. change (fl_enough (if J i then fl_far (p1 i (K i) s) else p1 i (K i) s)) with (p2 i (K i) (J i) s).
  destruct (fl_st (p2 i (K i) (J i) s)) eqn:Efs; try reflexivity. rewrite say_note; [reflexivity|].
  assert (Hp2 : fl_anchor (p2 i (K i) (J i) s) = fl_anchor s \/ fl_anchor (p2 i (K i) (J i) s) = i).
  { unfold p2, p1, fl_enough, fl_far, fl_flag, fl_good, fl_stop. destruct s as [st an ct rc]. cbn [fl_st fl_anchor]. destruct (J i), (K i), st; cbn [fl_st fl_anchor]; repeat match goal with |- context [if ?b then _ else _] => destruct b end; cbn [fl_anchor]; auto. }
  destruct Hp2 as [-> | ->]; lia.
Qed.

Lemma step_anchor i s : (fl_anchor s < N)%nat -> (i < N)%nat -> (fl_anchor (fst (pstep i (K i) (J i) s)) < N)%nat /\ forall a n, snd (pstep i (K i) (J i) s) = Some (a, n) -> (a < N)%nat.
Proof.
  intros Hs Hi. assert (Hp2 : fl_anchor (p2 i (K i) (J i) s) = fl_anchor s \/ fl_anchor (p2 i (K i) (J i) s) = i).
  { unfold p2, p1, fl_enough, fl_far, fl_flag, fl_good, fl_stop. destruct s as [st an ct rc]. cbn [fl_st fl_anchor]. destruct (J i), (K i), st; cbn [fl_st fl_anchor]; repeat match goal with |- context [if ?b then _ else _] => destruct b end; cbn [fl_anchor]; auto. }
  assert (Hb : (fl_anchor (p2 i (K i) (J i) s) < N)%nat) by (destruct Hp2 as [-> | ->]; auto).
  unfold pstep. destruct (K i) eqn:EK; [cbn; split; [auto|intros; discriminate]|..]; destruct (fl_st _); cbn [fst snd fl_anchor]; (split; [exact Hb|]; intros a n E; first [discriminate E | injection E as <- _; exact Hb]).
Qed.
Definition added (o : list (nat * Z)) (i : nat) : list comment := map (fun x => SuperFL (snd x)) (filter (fun x => Nat.eqb (fst x) i) o).
Lemma fl_all gs cm : boards v gs -> length cm = N -> forall n, (1 <= n <= N)%nat -> (forall i, (i < n)%nat -> ~ crashes f i) ->
  exists li cm', foldM (fl_event v gs) (rng 1 n) (FL NotStart 0 0 0, 0%nat, cm) = Ok (fst (prun K J n), li, cm') /\
    previous f n li /\ (fl_anchor (fst (prun K J n)) < N)%nat /\ length cm' = N /\ forall i, nth i cm' [] = nth i cm [] ++ added (snd (prun K J n)) i.
Proof.
  intros Hg Hc. induction n as [|n IH]; intros Hn Hno; [lia|]. destruct n as [|n].
  - exists 0%nat, cm. split; [reflexivity|]. split. { split; [lia|]. split; auto. intros k e Hk. lia. } cbn [prun fst snd fl_anchor]. split; [lia|]. split; auto. intros i. now rewrite app_nil_r.
  - destruct (IH ltac:(lia)) as (li & cm' & E & Hpr & Han & Hl & Hcm). { intros i Hi. apply Hno. lia. }
    replace (rng 1 (S (S n))) with (rng 1 (S n) ++ [S n]) by (unfold rng; replace (S (S n) - 1)%nat with (S n) by lia; replace (S n - 1)%nat with n by lia; now rewrite seq_S).
    rewrite foldM_app, E. cbn [bind foldM]. rewrite (@prun_S K J (S n) ltac:(lia)). destruct (prun K J (S n)) as [s o]. cbn [fst snd] in *. assert (Hm1 : (1 <= S n)%nat) by lia. set (m := S n) in *. clearbody m.
    destruct (@fl_event_ok gs cm' s li m Hg ltac:(lia) Hpr (Hno m ltac:(lia)) ltac:(lia) Hl) as (li' & Hpr' & E2). rewrite E2. cbn [bind].
    destruct (@step_anchor m s Han ltac:(lia)) as [Han' Ha]. destruct (pstep m (K m) (J m) s) as [s' c]. cbn [fst snd] in *.
    exists li', (out_of c cm'). split; [reflexivity|]. split; auto. split; auto. destruct c as [[a k]|]; cbn [out_of]; [|split; auto; intros i; rewrite app_nil_r; apply Hcm].
    specialize (Ha a k eq_refl). split; [now rewrite note_len|]. intros i. rewrite note_nth by lia. rewrite Hcm. unfold added. rewrite filter_app, map_app. cbn [filter fst snd].
    destruct (Nat.eqb_spec a i); cbn [map]; [now rewrite app_assoc|now rewrite app_nil_r].
Qed.
End Connect.

Section Crash.
Variables (f : video) (raw : list Z) (now : Z) (v : bv) (HP : playable f) (EA : analyse (of_file f raw now) = Ok v).
Let HWF : well_formed f := proj1 HP.
Notation row := (v_height f). Notation column := (v_width f).
Notation N := (length (b_rec v)).
Lemma crash_panics gs cm s li i : boards v gs -> (i < N)%nat -> (li < N)%nat -> crashes f i -> fl_event v gs (s, li, cm) i = Panic.
Proof.
  intros Hg Hi Hli (Hi1 & e & m & u & Hev & Hcr). destruct (event_rec HP EA Hi) as (r & e1 & m1 & u1 & Er & Er' & Hev1 & _ & Hu & Hmo & _ & _ & Hpl).
  destruct (event_unique Hev Hev1) as (-> & -> & ->). clear Hev1.
  destruct (event_rec HP EA Hli) as (rl & el & ml & ul & Erl & Erl' & _ & _ & _ & _ & _ & _ & Hpll).
  pose proof Hev as (He & Hs & t & Est).
  destruct (rec_at HWF EA Er) as (e0 & m0 & m0' & B & X1 & X2 & _ & _ & _ & _ & _ & _ & _ & HB & Hsf). rewrite He in X1. injection X1 as <-. rewrite Hs in X2. injection X2 as <-.
  assert (Hgb : exists pb, vget gs (r_prior r) = Ok pb /\ gb_board (pb_g pb) = B).
  { destruct (boards_get (r_prior r) Hg) as [(g0 & pb & E0 & E1 & Hpb)|[E0 _]]; [|congruence]. exists pb. unfold vget. rewrite E1. split; auto. rewrite (ok_pb_board Hpb).
    rewrite HB in E0. injection E0 as <-. reflexivity. }
  destruct Hgb as (pb & Egs & Epb).
  assert (HBr : rect row column B). { destruct (prior_board HWF EA Er HB) as (k & sk & Hk & ->). destruct (game_in HWF Hk) as (HI & <- & <- & _). apply (i_rect HI). }
  assert (Hnm : event_eqb (ve_mouse e) e_mv = false).
  { apply not_true_iff_false. intros X. apply event_eqb_iff in X. rewrite X in Hcr. destruct Hcr as [[Y _]|[-> _]]; [discriminate Y|]. rewrite X, step_mv in Est. discriminate Est. }
  unfold fl_event. rewrite Er'. cbn [bind]. rewrite Hmo, Hnm, Hpl. cbn [bind]. rewrite Erl'. cbn [bind]. rewrite Hpll. cbn [bind]. rewrite Egs, Hu. cbn [bind]. rewrite Epb.
  destruct Hcr as [[Hrc Hout]|(H3 & Hcol & Hmost)].
  - rewrite (proj2 (event_eqb_iff _ _) Hrc). rewrite (get_out HBr) by (rewrite <- surjective_pairing; auto). reflexivity.
  - subst u. destruct (event_inb HP Hev ltac:(lia)) as (_ & _ & Hinb & _).
    assert (Hfl : (if event_eqb (ve_mouse e) e_rc then let* w := get B (fst (cell_at f e)) (snd (cell_at f e)) in Ok ((w =? 10) && (3 =? 1)%nat) else Ok false) = Ok false).
    { destruct (event_eqb (ve_mouse e) e_rc); auto. rewrite (get_ok HBr) by (rewrite <- surjective_pairing; auto). cbn [bind]. now rewrite andb_false_r. }
    rewrite Hfl. cbn [bind]. change (3 =? 3)%nat with true. cbv iota.
    pose proof (playing_three HP Hev) as Hpm. assert (B = m_gb m) as -> by (apply (proj2 Hsf); auto).
    destruct (good_chording_last HBr Hinb Hcol) as [[(q' & Q1 & Q2 & Q3) _]|[_ ->]]; [specialize (Hmost q' Q1 Q2); lia|reflexivity].
Qed.
Lemma best_dec g p : {best_chord row column g p} + {~ best_chord row column g p}.
Proof.
  destruct (Z_lt_dec 0 (chord_gain row column g p)) as [H|H]; [|right; intros [X _]; auto].
  assert (Ho : forall q, {ortho p q} + {~ ortho p q}). { intros q. unfold ortho. destruct (Nat.eq_dec (fst p) (fst q)), (Nat.eq_dec (snd q + 1) (snd p)), (Nat.eq_dec (snd p + 1) (snd q)), (Nat.eq_dec (snd p) (snd q)), (Nat.eq_dec (fst q + 1) (fst p)), (Nat.eq_dec (fst p + 1) (fst q)); try (left; tauto); right; tauto. }
  destruct (Forall_dec (fun q => ortho p q -> chord_gain row column g q <= chord_gain row column g p)) with (l := positions row column) as [F|F].
  - intros q. destruct (Ho q); [|left; tauto]. destruct (Z_le_dec (chord_gain row column g q) (chord_gain row column g p)); [left; tauto|right; tauto].
  - left. split; auto. intros q Hq. rewrite Forall_forall in F. apply F. now apply in_positions.
  - right. intros [_ X]. apply F. apply Forall_forall. intros q Hq. apply X. now apply in_positions.
Qed.
Lemma crash_dec i : (i < N)%nat -> crashes f i \/ ~ crashes f i.
Proof.
  intros Hi. destruct (Nat.eq_dec i 0) as [->|H0]; [right; intros [X _]; lia|].
  destruct (event_rec HP EA Hi) as (r & e & m & u & _ & _ & Hev & _).
  assert (Hwhat : crashes f i <-> ve_mouse e = e_rc /\ ~ inb row column (cell_at f e) \/ u = 3%nat /\ (snd (cell_at f e) + 1 = column)%nat /\ most row column (m_gb m) (cell_at f e)).
  { split; [intros (_ & e1 & m1 & u1 & Hev1 & H); destruct (event_unique Hev Hev1) as (-> & -> & ->); auto|intros H; split; [lia|exists e, m, u; auto]]. }
  rewrite Hwhat. clear Hwhat.
  assert (D1 : (ve_mouse e = e_rc /\ ~ inb row column (cell_at f e)) \/ ~ (ve_mouse e = e_rc /\ ~ inb row column (cell_at f e))).
  { destruct (event_eqb (ve_mouse e) e_rc) eqn:E; [apply event_eqb_iff in E|right; intros [X _]; apply event_eqb_iff in X; congruence]. destruct (inb_dec row column (cell_at f e)); tauto. }
  destruct D1 as [D1|D1]; [tauto|]. destruct (Nat.eq_dec u 3) as [->|]; [|tauto]. destruct (Nat.eq_dec (snd (cell_at f e) + 1) column) as [Hc|]; [|tauto].
  destruct (event_inb HP Hev ltac:(lia)) as (_ & G & Hinb & _). assert (Hr : rect row column (m_gb m)) by (destruct G as (HI & <- & <- & _); apply (i_rect HI)).
  destruct (good_chording_last Hr Hinb Hc) as [[(q' & Q1 & Q2 & Q3) _]|[Hm _]]; [|left; right; auto]. right. intros [X|(_ & _ & X)]; [tauto|]. specialize (X q' Q1 Q2). lia.
Qed.
Lemma first_crash n : (n <= N)%nat -> (forall i, (i < n)%nat -> ~ crashes f i) \/ exists i, (i < n)%nat /\ crashes f i /\ forall j, (j < i)%nat -> ~ crashes f j.
Proof.
  induction n as [|n IH]; intros Hn; [left; intros; lia|]. destruct (IH ltac:(lia)) as [H|(i & Hi & H)]; [|right; exists i; split; [lia|auto]].
  destruct (crash_dec (i := n) ltac:(lia)) as [Hc|Hc]; [right; exists n; auto|]. left. intros i Hi. destruct (Nat.eq_dec i n) as [->|]; auto. apply H. lia.
Qed.

(** every event has a kind, and it can be told whether it jumps *)
Lemma kind_total i : (i < N)%nat -> exists k, is_kind f i k.
Proof.
  intros Hi. destruct (event_rec HP EA Hi) as (r & e & m & u & Er & _ & Hev & _). unfold is_kind.
  assert (W : forall k, match k with KMove => ve_mouse e = e_mv | KFlag => is_flag f i e u | KGood => is_good f m e u | KStop => is_stop f m e u
     | KOther => ve_mouse e <> e_mv /\ ~ is_flag f i e u /\ ~ is_good f m e u /\ ~ is_stop f m e u end -> exists k, is_kind f i k).
  { intros k Hk. exists k, e, m, u. split; auto. }
  destruct (event_eqb (ve_mouse e) e_mv) eqn:Emv; [apply event_eqb_iff in Emv; exact (W KMove Emv)|].
  assert (Hnm : ve_mouse e <> e_mv) by (intros X; apply event_eqb_iff in X; congruence).
  destruct (last_ok HWF EA Er) as (B & _ & HlB).
  assert (Df : is_flag f i e u \/ ~ is_flag f i e u).
  { destruct (event_eqb (ve_mouse e) e_rc) eqn:E; [apply event_eqb_iff in E|right; intros [X _]; apply event_eqb_iff in X; congruence].
    destruct (Nat.eq_dec u 1); [|right; intros (_ & X & _); auto]. destruct (Z.eq_dec (cell B (cell_at f e)) 10).
    - left. split; auto. split; auto. exists B. auto.
    - right. intros (_ & _ & B' & HB' & X). assert (B' = B) as ->; [|auto]. eapply last_board_unique; eauto. intros j Hj. destruct (event_rec HP EA (i := j) ltac:(lia)) as (r1 & e1 & s1 & u1 & _ & _ & Hj1 & _). eauto. }
  destruct Df as [Df|Df]; [exact (W KFlag Df)|]. destruct (best_dec (m_gb m) (cell_at f e)) as [Hb|Hb].
  - destruct (Nat.eq_dec u 3) as [H3|H3]; [exact (W KGood (conj H3 Hb))|].
    assert (Ng : ~ is_good f m e u) by (intros [X _]; auto).
    assert (Ds : is_stop f m e u \/ ~ is_stop f m e u).
    { unfold is_stop. destruct (event_eqb (ve_mouse e) e_lr) eqn:E1; [apply event_eqb_iff in E1|].
      - destruct (m_mouse m); first [left; right; split; [auto|]; left; split; auto; fail | right; intros [[X _]|[_ [[_ [X|X]]|[X _]]]]; try discriminate X; [auto|rewrite E1 in X; discriminate X]].
      - assert (E1' : ve_mouse e <> e_lr) by (intros X; apply event_eqb_iff in X; congruence). destruct (event_eqb (ve_mouse e) e_rr) eqn:E2; [apply event_eqb_iff in E2|].
        + destruct (m_mouse m); first [left; right; split; [auto|]; right; split; auto; fail | right; intros [[X _]|[_ [[X _]|[_ X]]]]; try discriminate X; auto].
        + assert (E2' : ve_mouse e <> e_rr) by (intros X; apply event_eqb_iff in X; congruence). right. tauto. }
    destruct Ds as [Ds|Ds]; [exact (W KStop Ds)|]. apply (W KOther). auto.
  - assert (Ng : ~ is_good f m e u) by (intros [_ X]; auto).
    assert (Ds : is_stop f m e u \/ ~ is_stop f m e u).
    { unfold is_stop. destruct (Nat.eq_dec u 3); [left; left; auto|]. destruct (event_eqb (ve_mouse e) e_lr) eqn:E1; [apply event_eqb_iff in E1|].
      - destruct (m_mouse m); first [left; right; split; [auto|]; left; split; auto; fail | right; intros [[X _]|[_ [[_ [X|X]]|[X _]]]]; try discriminate X; [auto|rewrite E1 in X; discriminate X]].
      - assert (E1' : ve_mouse e <> e_lr) by (intros X; apply event_eqb_iff in X; congruence). destruct (event_eqb (ve_mouse e) e_rr) eqn:E2; [apply event_eqb_iff in E2|].
        + destruct (m_mouse m); first [left; right; split; [auto|]; right; split; auto; fail | right; intros [[X _]|[_ [[X _]|[_ X]]]]; try discriminate X; auto].
        + assert (E2' : ve_mouse e <> e_rr) by (intros X; apply event_eqb_iff in X; congruence). right. tauto. }
    destruct Ds as [Ds|Ds]; [exact (W KStop Ds)|]. apply (W KOther). auto.
Qed.
Lemma previous_exists i : (1 <= i <= N)%nat -> exists j, previous f i j.
Proof.
  induction i as [|i IH]; intros Hi; [lia|]. destruct i as [|i].
  - exists 0%nat. split; [lia|]. split; auto. intros k e Hk. lia.
  - destruct (IH ltac:(lia)) as (j & Hj). destruct (event_rec HP EA (i := S i) ltac:(lia)) as (r & e & _ & _ & _ & _ & (He & _) & _). eexists. exact (previous_next He Hj).
Qed.
Lemma jumps_dec i : (i < N)%nat -> exists b, b = true <-> jumps f i.
Proof.
  intros Hi. destruct (Nat.eq_dec i 0) as [->|H0].
  { exists false. split; [discriminate|]. intros (j & e & e' & (H & _) & _). lia. }
  destruct (@previous_exists i ltac:(lia)) as (j & Hj). pose proof Hj as (Hlt & _).
  destruct (event_rec HP EA Hi) as (_ & e & _ & _ & _ & _ & (He & _) & _). destruct (event_rec HP EA (i := j) ltac:(lia)) as (_ & e' & _ & _ & _ & _ & (He' & _) & _).
  exists (16 <? (Z.of_nat (fst (cell_at f e)) - Z.of_nat (fst (cell_at f e'))) * (Z.of_nat (fst (cell_at f e)) - Z.of_nat (fst (cell_at f e'))) + (Z.of_nat (snd (cell_at f e)) - Z.of_nat (snd (cell_at f e'))) * (Z.of_nat (snd (cell_at f e)) - Z.of_nat (snd (cell_at f e')))).
  rewrite Z.ltb_lt. split.
  - intros H. exists j, e, e'. auto.
  - intros (j2 & e2 & e3 & P1 & P2 & P3 & P4). rewrite He in P2. injection P2 as <-. assert (j2 = j) as -> by (eapply (previous_unique (v := v)); [|exact P1|exact Hj]; lia). rewrite He' in P3. injection P3 as <-. exact P4.
Qed.
Lemma choose {A} (d : A) (P : nat -> A -> Prop) n : (forall i, (i < n)%nat -> exists x, P i x) -> exists F, forall i, (i < n)%nat -> P i (F i).
Proof.
  induction n as [|n IH]; intros H; [exists (fun _ => d); intros; lia|]. destruct IH as (F & HF). { intros i Hi. apply H. lia. } destruct (H n ltac:(lia)) as (x & Hx).
  exists (fun i => if Nat.eqb i n then x else F i). intros i Hi. destruct (Nat.eqb_spec i n) as [->|]; auto. apply HF. lia.
Qed.
End Crash.

Lemma not_in_nil {A} (l : list A) : (forall x, ~ In x l) -> l = [].
Proof. destruct l as [|x l]; auto. intros H. destruct (H x). now left. Qed.
(** ** C73 *)
(** [K] tells the kinds of the events and [J] which of them jump. *)
Definition kinds (f : video) (K : nat -> kind) (J : nat -> bool) : Prop :=
  forall i, (i < length (v_events f))%nat -> is_kind f i (K i) /\ (J i = true <-> jumps f i).
(** A run begins with a flag at event [a], while no other run is under way ([idle]). It ends ([ends]) at the first event after
    it that is a stop or that, once the run has a second step, jumps. Its number of steps is that of the flags and good double
    clicks up to the last good double click; it must be at least five before the end ([good_end]). The run is praised
    with that number at its first event; an unfinished run at the end of the file is not. *)
Definition praised (f : video) (K : nat -> kind) (J : nat -> bool) (a : nat) (n : Z) : Prop :=
  exists z, (z < length (v_events f))%nat /\ idle K J a /\ good_end K J a z n.
Theorem C73_kinds : forall f raw now v, playable f -> analyse (of_file f raw now) = Ok v -> exists K J, kinds f K J.
Proof.
  intros f raw now v HP EA. destruct (@choose kind KOther (is_kind f) (length (v_events f))) as (K & HK). { intros i Hi. rewrite <- (events_len HP EA) in Hi. exact (kind_total HP EA Hi). }
  destruct (@choose bool false (fun i b => b = true <-> jumps f i) (length (v_events f))) as (J & HJ). { intros i Hi. rewrite <- (events_len HP EA) in Hi. exact (jumps_dec HP EA Hi). }
  exists K, J. intros i Hi. split; [apply HK|apply HJ]; auto.
Qed.
Lemma fl_report f raw now v st K J :
  playable f -> analyse (of_file f raw now) = Ok v -> analysed v st -> kinds f K J -> (forall i, ~ crashes f i) ->
  exists st' o, super_fl_local v st = Ok st' /\ (forall a n, In (a, n) o <-> praised f K J a n) /\ NoDup (map fst o) /\
    length (snd st') = length (snd st) /\ forall i, nth i (snd st') [] = nth i (snd st) [] ++ added o i.
Proof.
  intros HP EA (fl & El) HKJ Hno. destruct (analysed_fine El) as [Hg Hc]. destruct st as [gs cm]. cbn [fst snd] in *.
  pose proof (events_len HP EA) as HN. destruct (Nat.eq_dec (length (b_rec v)) 0) as [H0|H0].
  - unfold super_fl_local. rewrite H0. cbn. exists (gs, cm), []. split; [reflexivity|]. split; [|split; [constructor|split; auto; intros i; now rewrite app_nil_r]].
    intros a n. split; [intros []|]. intros (z & Hz & _). rewrite <- HN in Hz. lia.
  - destruct (@fl_all f raw now v HP EA K J) with (gs := gs) (cm := cm) (n := length (b_rec v)) as (li & cm' & E & _ & _ & Hl & Hcm); auto; try lia.
    { intros i Hi. now apply HKJ. } { intros i Hi. now apply HKJ. }
    unfold super_fl_local. cbn [fst snd]. rewrite E. cbn [bind]. exists (gs, cm'), (snd (prun K J (length (b_rec v)))). split; [reflexivity|]. cbn [snd].
    pose proof (@prun_spec K J (length (b_rec v)) ltac:(lia)) as Hp. destruct (prun K J (length (b_rec v))) as [s o]. cbn [snd] in *. destruct Hp as (_ & Ho & Hnd).
    rewrite HN in Ho. split; [exact Ho|]. split; auto. split; [congruence|auto].
Qed.
Theorem C73_super_fl : forall f raw now v st K J,
  playable f -> analyse (of_file f raw now) = Ok v -> analysed v st -> kinds f K J -> (forall i, ~ crashes f i) ->
  exists st', super_fl_local v st = Ok st' /\
    marks_events (fun a => exists n, praised f K J a n) (fun a c => exists n, praised f K J a n /\ c = SuperFL n) (snd st) (snd st').
Proof.
  intros f raw now v st K J HP EA Hst HKJ Hno. destruct (fl_report HP EA Hst HKJ Hno) as (st' & o & E & Ho & Hnd & Hl & Hcm). exists st'. split; auto. split; auto.
  intros a Ha. eexists. split; [apply Hcm|]. split.
  - intros (n & Hn). apply Ho in Hn. assert (Ef : filter (fun x => Nat.eqb (fst x) a) o = [(a, n)]).
    { clear - Hn Hnd. induction o as [|[b k] o IH]; [destruct Hn|]. cbn [map fst] in Hnd. apply NoDup_cons_iff in Hnd as [Hb Hnd]. cbn [filter fst]. destruct Hn as [E|Hn].
      - injection E as -> ->. rewrite Nat.eqb_refl. f_equal. apply not_in_nil. intros [c k] Hin. apply filter_In in Hin as [Hin E]. cbn [fst] in E. apply Nat.eqb_eq in E. subst c. apply Hb. apply in_map_iff. exists (a, k). auto.
      - destruct (Nat.eqb_spec b a) as [->|]; [exfalso; apply Hb; apply in_map_iff; exists (a, n); auto|auto]. }
    unfold added. rewrite Ef. cbn. eexists. split; [reflexivity|]. exists n. split; auto. now apply Ho.
  - intros Hn. unfold added. replace (filter _ o) with (@nil (nat * Z)); [reflexivity|]. symmetry. apply not_in_nil. intros [b k] Hin. apply filter_In in Hin as [Hin Eb]. cbn [fst] in Eb. apply Nat.eqb_eq in Eb. subst b.
    apply Hn. exists k. now apply Ho.
Qed.
Print Assumptions C73_super_fl.
Theorem C73_crash : forall f raw now v st i, playable f -> analyse (of_file f raw now) = Ok v -> analysed v st -> crashes f i -> super_fl_local v st = Panic.
Proof.
  intros f raw now v st i HP EA (fl & El) Hcr. destruct (analysed_fine El) as [Hg Hc]. destruct st as [gs cm]. cbn [fst snd] in *.
  pose proof (events_len HP EA) as HN. assert (Hi : (1 <= i < length (b_rec v))%nat). { destruct Hcr as (H1 & e & s & u & (He & _) & _). split; auto. rewrite HN. apply nth_error_Some. congruence. }
  destruct (first_crash HP EA (le_n _)) as [H|(k & Hk & Hck & Hbefore)]; [destruct (H i (proj2 Hi) Hcr)|].
  destruct (C73_kinds HP EA) as (K & J & HKJ). assert (Hk1 : (1 <= k)%nat) by apply Hck.
  destruct (@fl_all f raw now v HP EA K J) with (gs := gs) (cm := cm) (n := k) as (li & cm' & E & (Hlt & _) & _); auto; try lia.
  { intros j Hj. now apply HKJ. } { intros j Hj. now apply HKJ. }
  unfold super_fl_local. cbn [fst snd].
  replace (rng 1 (length (b_rec v))) with (rng 1 k ++ k :: rng (S k) (length (b_rec v))).
  - rewrite foldM_app, E. cbn [bind foldM]. rewrite (@crash_panics f raw now v HP EA gs cm' _ li k); auto. lia.
  - unfold rng. replace (length (b_rec v) - 1)%nat with ((k - 1) + S (length (b_rec v) - S k))%nat by lia. rewrite seq_app. cbn [seq]. do 2 f_equal; [lia|f_equal; lia].
Qed.
Print Assumptions C73_crash.

(** A run of four flags and a good double click, ended by a left click, is praised at its first flag. *)
Definition fl_run : list vev := left_at 0 2 0 ++ right_at 0 6 100 ++ right_at 0 5 200 ++ right_at 0 4 300 ++ right_at 0 1 400 ++ chord_at 0 2 500.
Definition fl_file : video := file_of b112 1 12 2 (fl_run ++ left_at 0 0 600).
Lemma comment_praised f v cm a n : playable f -> analyse (of_file f [] 0) = Ok v -> comments_of f [Super_fl_local] = Ok cm -> nth a cm [] = [SuperFL n] ->
  (forall i, ~ crashes f i) /\ exists K J, kinds f K J /\ praised f K J a n.
Proof.
  intros HP EA EC Hn. assert (Hst : analysed v (fstart v)) by (exists []; reflexivity).
  unfold comments_of in EC. rewrite EA in EC. cbn [bind analyse_for_features foldM run_feature] in EC. apply bind_ok in EC as (st' & E1 & E2). apply bind_ok in E1 as (st1 & E1 & E3).
  assert (Hno : forall i, ~ crashes f i). { intros i Hi. rewrite (C73_crash HP EA Hst Hi) in E1. discriminate E1. }
  split; auto. destruct (C73_kinds HP EA) as (K & J & HKJ). exists K, J. split; auto.
  destruct (fl_report HP EA Hst HKJ Hno) as (st2 & o & F1 & Ho & _ & _ & Hcm). rewrite E1 in F1. injection F1 as <-. injection E3 as <-. specialize (Hcm a).
  injection E2 as E2. rewrite E2, Hn in Hcm. assert (Hz : nth a (snd (fstart v)) [] = []).
  { unfold fstart. cbn [snd]. clear. generalize (b_rec v). intros l. revert a. induction l as [|x l IH]; intros [|a]; cbn; auto. }
  rewrite Hz in Hcm. cbn [app] in Hcm. unfold added in Hcm. destruct (filter (fun x : nat * Z => Nat.eqb (fst x) a) o) as [|[b k] l] eqn:Ef; [discriminate Hcm|]. cbn [map snd] in Hcm. injection Hcm as Hk _.
  apply Ho. assert (Hin : In (b, k) (filter (fun x : nat * Z => Nat.eqb (fst x) a) o)) by (rewrite Ef; now left). apply filter_In in Hin as [Hin E]. cbn [fst] in E. apply Nat.eqb_eq in E. congruence.
Qed.
Example C73_case : playable fl_file /\ (forall i, ~ crashes fl_file i) /\ (exists K J, kinds fl_file K J /\ praised fl_file K J 2 5) /\
  comments_of fl_file [Super_fl_local] = Ok [[]; []; [SuperFL 5]; []; []; []; []; []; []; []; []; []; []; []; []; []].
Proof.
  assert (HP : playable fl_file) by exact far_playable.
  assert (EC : comments_of fl_file [Super_fl_local] = Ok [[]; []; [SuperFL 5]; []; []; []; []; []; []; []; []; []; []; []; []; []]) by (vm_compute; reflexivity).
  assert (EA : exists v, analyse (of_file fl_file [] 0) = Ok v) by (eexists; vm_compute; reflexivity). destruct EA as (v & EA).
  split; [exact HP|]. destruct (@comment_praised fl_file v _ 2%nat 5 HP EA EC eq_refl) as [H1 H2]. split; [exact H1|]. split; [exact H2|exact EC].
Qed.
(** The same run at the end of the file is not praised. *)
Theorem C73_refuted_unfinished : comments_of (file_of b112 1 12 2 fl_run) [Super_fl_local] = Ok [[]; []; []; []; []; []; []; []; []; []; []; []; []; []].
Proof. vm_compute. reflexivity. Qed.
(** A right press beside the board, which the game ignores, crashes the analysis, as does a good double click in the last column. *)
Theorem C73_refuted_outside : let f := file_of b22 2 2 2 (left_at 0 0 0 ++ right_at 0 9 100) in playable f /\
  (exists v, analyse (of_file f [] 0) = Ok v) /\ comments_of f [Super_fl_local] = Panic.
Proof. cbv zeta. split; [split; [split; [apply b22_legal|cbn; lia]|reflexivity]|]. split; [eexists; vm_compute; reflexivity|]. vm_compute. reflexivity. Qed.
Theorem C73_refuted_last_column : let f := file_of b22 2 2 2 (left_at 1 1 0 ++ right_at 0 1 100 ++ right_at 1 0 200 ++ chord_at 1 1 300) in playable f /\
  (exists e s, event_at f 8 e s 3 /\ best_chord 2 2 (m_gb s) (cell_at f e)) /\ comments_of f [Super_fl_local] = Panic.
Proof.
  cbv zeta. split; [split; [split; [apply b22_legal|cbn; lia]|reflexivity]|]. split; [|vm_compute; reflexivity].
  eexists _, _. split; [split; [reflexivity|split; [vm_compute; reflexivity|eexists; vm_compute; reflexivity]]|]. split; [vm_compute; reflexivity|].
  intros [[|[|i]] [|[|j]]] [Hi Hj]; cbn in Hi, Hj; try lia; intros _; vm_compute; congruence.
Qed.
