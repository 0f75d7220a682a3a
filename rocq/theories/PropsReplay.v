(** * C58: a game that is played, saved and read back is replayed exactly as it was played.
    C59: the result time of a game. *)
From Verif Require Import Base Spec BaseFacts LayMine LayMineProofs Metrics Refresh MineBoard OpProofs
  MineBoardProofs MineBoardFrame BoardCache Evf EvfSpec EvfProofs BaseVideo GameStats ReplayProofs PropsEvf PropsSetters PropsGame.
Open Scope Z_scope.

(** ** The vocabulary *)

(** A recording object on which a game is about to be played: new, or reset (after whatever it was
    used for) and given the board to be played. *)
Inductive fresh_game : bv -> Prop :=
| FG_new b row column pix now v :
    legal_board row column b -> (0 < row)%nat -> new_before_game b pix now = Ok v -> fresh_game v
| FG_reset v0 v1 b row column pix v :
    legal_board row column b -> (0 < row)%nat ->
    bv_reset v0 row column pix = Ok v1 -> set_board v1 b = Ok (v, Some 0%nat) -> fresh_game v.

(** Everything stored with an event except the path length. *)
Definition no_path (r : rec) : rec :=
  Rec (r_time r) (r_mouse r) (r_x r) (r_y r) (r_useful r) (r_prior r) (r_next r) (r_mstate r)
      (r_left r) (r_right r) (r_double r) (r_ce r) (r_flag r) (r_solved r) [].

(** The calls covered: mouse events of the nine kinds of the format, at most 65535 pixels away; giving
    a (legal) board as long as nothing but moves and left presses happened; the setters, but the pixel
    size only before the game and the result time not at all; saving; showing the mines at the end.
    Preflagging by an explicit "pf" event starts with the buttons up. When a step takes the game back
    to the Ready state, the counters of chords and effective clicks are zero. *)
Definition ok_call (v : bv) (c : vcall) : Prop :=
  match c with
  | VStep now stamp e p =>
      nine_kinds e /\ Z.of_nat (fst p) < 65536 /\ Z.of_nat (snd p) < 65536 /\
      (b_state v = Ready -> e = e_pf -> m_mouse (b_mb v) = UpUp) /\
      (b_state v = PreFlaging -> forall v' o, bv_step v now stamp e p = Ok (v', o) ->
         b_state v' = Ready -> m_ce (b_mb v') = 0%nat /\ m_double (b_mb v') = 0%nat)
  | VBoard b => over (b_state v) \/
      (legal_board (v_height (b_meta v)) (v_width (b_meta v)) b /\
       Forall (fun r => r_mouse r = e_mv \/ r_mouse r = e_lc) (b_rec v))
  | VSet (SetPixSize _) => b_state v = Ready
  | VSet (SetRtime _) => b_allow_rtime v = false
  | VReset _ _ _ => False
  | _ => True
  end.
Fixpoint ok_session (v : bv) (cs : list vcall) : Prop :=
  match cs with
  | [] => True
  | c :: cs' => ok_call v c /\ forall v', vcall1 v c = Ok v' -> ok_session v' cs'
  end.

Lemma event_eq_mv (e : event) : {e = e_mv} + {e <> e_mv}.
Proof. destruct e; (left; reflexivity) || (right; discriminate). Qed.

(** ** The log of a game *)
Section Log.
Variables (b : board) (row column pix : nat).
Notation H := (Z.of_nat row * Z.of_nat pix).
Notation W := (Z.of_nat column * Z.of_nat pix).

Definition at_pos (r : rec) : pos := (Z.to_nat (r_y r) / pix, Z.to_nat (r_x r) / pix)%nat.
Definition next_boards (a : nat) (m : mb) (bs : list board) : list board :=
  if (1 <=? a)%nat then bs ++ [m_gb m] else bs.
Definition next_delta (a : nat) (m : mb) (t d : Z) : Z :=
  if (1 <=? a)%nat then match m_state m with Playing => d | _ => t end else d.
Inductive logged : list rec -> mb -> list board -> Z -> Prop :=
| LNil : logged [] (blank b row column UpUp) [mkboard row column 10] 0
| LSnoc rs m bs d r m' a : logged rs m bs d ->
    (0 < pix)%nat -> live (m_state m) -> nine_kinds (r_mouse r) -> 0 <= r_x r < 65536 -> 0 <= r_y r < 65536 ->
    step m (r_mouse r) (at_pos r) = Ok (m', Some a) -> m_state m' <> Ready ->
    no_path r = snap (r_time r) (r_mouse r) (r_x r) (r_y r) a (length bs - 1)
                     (length (next_boards a m' bs) - 1) m' [] ->
    match m_state m with
    | Playing => exists r1, last_inside H W (rev rs) = Ok r1 /\
                   r_hops r = r_hops r1 ++ [(r_y r - r_y r1, r_x r - r_x r1)]
    | _ => r_hops r = []
    end ->
    logged (rs ++ [r]) m' (next_boards a m' bs) (next_delta a m (r_time r) d).

Lemma logged_bs rs m bs d : logged rs m bs d -> (1 <= length bs)%nat.
Proof.
  induction 1; [cbn; lia|]. unfold next_boards. destruct (1 <=? a)%nat; [rewrite app_length; cbn [length]; lia|auto].
Qed.

Hypothesis Hleg : legal_board row column b.
Hypothesis Hrow : (0 < row)%nat.

Lemma blank_new : mb_new b = Ok (blank b row column UpUp).
Proof.
  unfold mb_new, get_row, get_column. rewrite (ncolsR_ok (proj1 Hleg) Hrow), (nrows_ok (proj1 Hleg)). reflexivity.
Qed.
Lemma blank_inv w : Inv (blank b row column w).
Proof. destruct (new_inv Hleg Hrow blank_new) as (HI & _). exact HI. Qed.
Lemma logged_inv rs m bs d : logged rs m bs d ->
  Inv m /\ Early m /\ m_row m = row /\ m_column m = column /\ m_board m = b.
Proof.
  induction 1 as [|rs m bs d r m' a Hl IH Hpix Hlv Hk Hx Hy E Hnr Hr Hh].
  - split; [apply blank_inv|]. split; [apply early_blank|auto].
  - destruct IH as (HI & HE & Hr1 & Hc1 & Hb1). split; [eapply step_inv; eauto|]. split; [eapply early_step; eauto|].
    destruct (step_counters HI E) as [K1 K2 K3 _ _ _ _ _]. rewrite K1, K2, K3. auto.
Qed.
Lemma logged_ready rs m bs d : logged rs m bs d -> m_state m = Ready -> rs = [].
Proof. intros [|]; [reflexivity|contradiction]. Qed.

Lemma div_lt_mul y n : 0 <= y -> (Z.to_nat y / pix < n)%nat -> (0 < pix)%nat -> y < Z.of_nat n * Z.of_nat pix.
Proof.
  intros Hy Hd Hp. assert (Z.to_nat y < n * pix)%nat; [|lia].
  pose proof (Nat.div_mod (Z.to_nat y) pix ltac:(lia)) as E.
  pose proof (Nat.mod_upper_bound (Z.to_nat y) pix ltac:(lia)). nia.
Qed.
(** The first event recorded is inside the board. *)
Lemma logged_head rs m bs d : logged rs m bs d -> rs = [] \/
  exists r rs', rs = r :: rs' /\ r_y r < H /\ r_x r < W.
Proof.
  induction 1 as [|rs m bs d r m' a Hl IH Hpix Hlv Hk Hx Hy E Hnr Hr Hh]; [auto|]. right.
  destruct IH as [->|(r0 & rs' & -> & H1 & H2)]; [|exists r0, (rs' ++ [r]); auto].
  exists r, []. split; [reflexivity|]. inversion Hl; [subst|destruct rs; discriminate].
  destruct (step_ready_cases (blank_inv UpUp) eq_refl E) as [(w & ->)|(_ & Hp & _)]; [cbn in Hnr; congruence|].
  destruct Hp as [Hp1 Hp2]. cbn in Hp1, Hp2. split; apply div_lt_mul; auto; lia.
Qed.

(** The opening click: the first event that opened a cell. *)
Definition opened_at (rs : list rec) (t : Z) : Prop :=
  exists pre r post, rs = pre ++ r :: post /\ (2 <= r_useful r)%nat /\ r_time r = t /\
    Forall (fun r => (r_useful r < 2)%nat) pre.
Lemma snap_useful r t e x y u p n m h : no_path r = snap t e x y u p n m h -> r_useful r = u.
Proof. intros E. apply (f_equal r_useful) in E. exact E. Qed.
Lemma logged_delta rs m bs d : logged rs m bs d ->
  (m_state m = Ready \/ m_state m = PreFlaging -> Forall (fun r => (r_useful r < 2)%nat) rs) /\
  (m_state m = Playing -> opened_at rs d).
Proof.
  induction 1 as [|rs m bs d r m' a Hl IH Hpix Hlv Hk Hx Hy E Hnr Hr Hh]; [split; [constructor|discriminate]|].
  apply snap_useful in Hr. destruct (logged_inv Hl) as (HI & _). destruct IH as [IH1 IH2].
  assert (Hc : m_state m = Playing \/ (m_state m = Ready \/ m_state m = PreFlaging)) by (unfold live in Hlv; tauto).
  destruct Hc as [Hst|Hst].
  - assert (Hne : not_early m') by (unfold step in E; rewrite Hst in E; eapply step_playing_late in E; eauto).
    destruct Hne as [Hn1 Hn2]. split; [intros [?|?]; contradiction|]. intros _.
    unfold next_delta. rewrite Hst. destruct (IH2 Hst) as (pre & r0 & post & -> & H1 & H2 & H3).
    exists pre, r0, (post ++ [r]). rewrite <- app_assoc. split; [reflexivity|]. split; auto. split; auto.
    now destruct (1 <=? a)%nat.
  - specialize (IH1 Hst).
    destruct (pre_step_useful HI Hst E) as [[Hq Ha]|[(Hq & Ha & _)|(Hq & Ha & _)]].
    + split; [intros _|intros Hp; destruct Hq; congruence]. apply Forall_app. split; auto. constructor; [lia|constructor].
    + split; [intros [?|?]; destruct Hq; congruence|]. intros Hp. exists rs, r, []. split; auto. split; [lia|].
      split; auto. unfold next_delta. rewrite Ha. cbn. destruct (m_state m); auto; destruct Hst; discriminate.
    + split; [intros [?|?]; congruence|congruence].
Qed.

(** ** Replaying the log *)
Definition shows (v : bv) : Prop :=
  v_height (b_meta v) = row /\ v_width (b_meta v) = column /\ v_pix (b_meta v) = Z.of_nat pix.
Hypothesis Hrow256 : (row < 256)%nat.
Hypothesis Hcol256 : (column < 256)%nat.
Hypothesis Hpix256 : (pix < 256)%nat.

Lemma u16mul_small x y : 0 <= x < 256 -> 0 <= y < 256 -> u16mul x y = Ok (x * y).
Proof.
  intros Hx Hy. unfold u16mul. rewrite !Z.mod_small by lia.
  destruct (Z.ltb_spec (x * y) 65536); [reflexivity|nia].
Qed.
Lemma outside_ok v y x : shows v -> outside v y x = Ok ((H <=? y) && (W <=? x)).
Proof.
  intros (E1 & E2 & E3). unfold outside. rewrite E1, E2, E3, !u16mul_small by lia. cbn [bind].
  destruct (H <=? y); reflexivity.
Qed.
Lemma last_not_outside_ok v rs r0 : shows v -> r_y r0 < H ->
  exists r, last_not_outside v (rs ++ [r0]) = Ok r.
Proof.
  intros Hv H0. induction rs as [|r rs IH]; cbn [app last_not_outside]; rewrite outside_ok by auto; cbn [bind].
  - replace (H <=? r_y r0) with false by lia. cbn. eauto.
  - destruct ((H <=? r_y r) && (W <=? r_x r)); eauto.
Qed.
Lemma analyse_hops_ok v rs r r0 : shows v -> r_y r0 < H ->
  exists h, analyse_hops v (rs ++ [r0]) r = Ok h.
Proof.
  intros Hv H0. unfold analyse_hops. rewrite outside_ok by auto. cbn [bind].
  destruct ((H <=? r_y r) && (W <=? r_x r)).
  - destruct rs; cbn; eauto.
  - destruct (@last_not_outside_ok v rs r0 Hv H0) as (r1 & E1). rewrite E1. cbn [bind]. eauto.
Qed.
(** The cases in which the last event was inside the board. *)
Lemma last_not_outside_in v r rs : shows v -> r_y r < H -> last_not_outside v (r :: rs) = Ok r.
Proof.
  intros Hv H0. cbn [last_not_outside]. rewrite outside_ok by auto. cbn [bind].
  replace (H <=? r_y r) with false by lia. reflexivity.
Qed.
Lemma analyse_hops_in v r1 rs r : shows v -> r_y r1 < H -> r_y r < H ->
  analyse_hops v (r1 :: rs) r = Ok (r_hops r1 ++ [(r_y r - r_y r1, r_x r - r_x r1)]).
Proof.
  intros Hv H1 H2. unfold analyse_hops. rewrite outside_ok by auto. cbn [bind].
  replace (H <=? r_y r) with false by lia. cbn [andb]. rewrite last_not_outside_in by auto. reflexivity.
Qed.

(** The hops of the replay ([rs']) against those recorded live ([rs]). *)
Definition hops_match (m : mb) (rs rs' : list rec) : Prop :=
  (m_state m = Ready \/ m_state m = PreFlaging -> map r_hops rs' = map (fun _ => []) rs /\
     map r_hops rs = map (fun _ => []) rs) /\
  (m_state m <> Ready -> m_state m <> PreFlaging ->
     exists pre r0 r1 post, rs = pre ++ r0 :: r1 :: post /\
       map r_hops rs' = map (fun _ => []) (pre ++ [r0]) ++
         map (fun r => (r_y r1 - r_y r0, r_x r1 - r_x r0) :: r_hops r) (r1 :: post) /\
       map r_hops (pre ++ [r0; r1]) = map (fun _ => []) (pre ++ [r0; r1]) /\
       Forall (fun r => (r_useful r < 2)%nat) (pre ++ [r0]) /\ ((2 <= r_useful r1)%nat \/ post = [])).

Lemma map_last {A B} (f : A -> B) l x l' y : map f (l ++ [x]) = map f (l' ++ [y]) -> map f l = map f l' /\ f x = f y.
Proof. intros E. rewrite !map_app in E. cbn in E. apply app_inj_tail in E. exact E. Qed.

Lemma replay_logged rs m bs d : logged rs m bs d -> forall v0, shows v0 -> b_rec v0 = [] ->
  map gb_board (b_stream v0) = [mkboard row column 10] -> b_delta v0 = 0 ->
  exists v1, foldM analyse_event (map (fun r => rec_of (ev_of r)) rs) (v0, blank b row column UpUp) = Ok (v1, m) /\
    map no_path (b_rec v1) = map no_path rs /\ map gb_board (b_stream v1) = bs /\ b_meta v1 = b_meta v0 /\
    b_delta v1 = d /\ b_state v1 = b_state v0 /\ b_cur v1 = b_cur v0 /\
    (Forall (fun r => r_y r < H /\ r_x r < W) rs -> hops_match m rs (b_rec v1)).
Proof.
  induction 1 as [|rs m bs d r m' a Hl IH Hpix Hlv Hk Hx Hy E Hnr Hr Hh]; intros v0 Hv Hrec Hstream Hd.
  - exists v0. cbn [map foldM]. rewrite Hrec. do 7 (split; [auto|]).
    intros _. split; [split; reflexivity|]. intros Hn; cbn in Hn; congruence.
  - destruct (IH v0 Hv Hrec Hstream Hd) as (v1 & E1 & F1 & F2 & F3 & F4 & F5 & F6 & F7). clear IH.
    rewrite map_app, foldM_app, E1. cbn [map foldM bind].
    destruct (logged_inv Hl) as (HI & _ & HR & HC & _).
    assert (Hv1 : shows v1) by (unfold shows in *; rewrite F3; exact Hv).
    assert (Hlb : (1 <= length bs)%nat).
    { clear - Hl. induction Hl; [cbn; lia|]. unfold next_boards. destruct (1 <=? a)%nat; [rewrite app_length; cbn; lia|auto]. }
    assert (Hls : length (b_stream v1) = length bs) by (rewrite <- F2; now rewrite map_length).
    (* the event seen by the state machine *)
    assert (Estep : exists v2, (match r_mouse r with
        | e_mv => Ok (v1, m, r_useful (rec_of (ev_of r)))
        | e => let* y := udiv (Z.to_nat (r_y r)) pix in
               let* x := udiv (Z.to_nat (r_x r)) pix in
               let* (m1, o) := step m e (y, x) in
               match o with
               | None => Panic
               | Some u => if (1 <=? u)%nat then
                   let g := set_game_board (gboard_new (Z.to_nat (v_mine_num (b_meta v1)))) (m_gb m1) in
                   let v := bw_stream v1 (b_stream v1 ++ [g]) in
                   let v := match m_state m with Playing => v | _ => bw_delta v (r_time r) end in
                   Ok (v, m1, u)
                 else Ok (v1, m1, u)
               end
        end) = Ok (v2, m', a) /\ map gb_board (b_stream v2) = next_boards a m' bs /\
        b_delta v2 = next_delta a m (r_time r) d /\ b_rec v2 = b_rec v1 /\ b_meta v2 = b_meta v1 /\
        b_state v2 = b_state v1 /\ b_cur v2 = b_cur v1).
    { assert (Hmv : r_mouse r = e_mv -> m' = m /\ a = 0%nat).
      { intros Em. rewrite Em, mv_noop in E by auto. now injection E as <- <-. }
      destruct (event_eq_mv (r_mouse r)) as [Em|Em].
      - rewrite Em. destruct (Hmv Em) as [-> ->]. exists v1. cbn. split; [reflexivity|].
        split; [exact F2|]. split; [exact F4|]. auto.
      - unfold udiv. replace (pix =? 0)%nat with false by lia. cbn [bind].
        fold (at_pos r). exists (if (1 <=? a)%nat then
             let v := bw_stream v1 (b_stream v1 ++ [set_game_board (gboard_new (Z.to_nat (v_mine_num (b_meta v1)))) (m_gb m')]) in
             match m_state m with Playing => v | _ => bw_delta v (r_time r) end else v1).
        split.
        { destruct (r_mouse r); try congruence; fold (at_pos r); rewrite E; cbn [bind]; destruct (1 <=? a)%nat; reflexivity. }
        unfold next_boards, next_delta. destruct (1 <=? a)%nat; [|rewrite F2, F4; auto 10].
        destruct (m_state m); cbn; rewrite map_app, F2; auto 10. }
    destruct Estep as (v2 & Es & G1 & G2 & G3 & G4 & G5 & G6).
    assert (Hlast : not_early m' -> exists pre r1, b_rec v1 = pre ++ [r1]).
    { intros [Hn1 Hn2]. destruct (logged_head Hl) as [->|(r0 & rs' & -> & _)].
      - exfalso. inversion Hl; [subst|destruct rs; discriminate].
        destruct (step_ready_cases (blank_inv UpUp) eq_refl E) as [(w & ->)|(Hp & _)]; [cbn in Hnr; congruence|congruence].
      - destruct (@exists_last _ (b_rec v1)) as (pre & r1 & Epre); [|eauto]. intros En. rewrite En in F1. discriminate. }
    assert (Hev : exists h, analyse_event (v1, m) (rec_of (ev_of r)) =
        Ok (bw_rec v2 (b_rec v2 ++ [snap (r_time r) (r_mouse r) (r_x r) (r_y r) a (length bs - 1)
               (length (next_boards a m' bs) - 1) m' h]), m') /\
        (m_state m' = PreFlaging -> h = []) /\
        (not_early m' -> forall pre r1, b_rec v1 = pre ++ [r1] -> r_y r1 < H -> r_y r < H ->
           h = r_hops r1 ++ [(r_y r - r_y r1, r_x r - r_x r1)])).
    { assert (Hv2 : shows v2) by (unfold shows in *; now rewrite G4).
      assert (Hh2 : exists h, match m_state m' with
               | Playing | Win | Loss => analyse_hops v2 (rev (b_rec v2)) (rec_of (ev_of r))
               | _ => Ok (r_hops (rec_of (ev_of r)))
               end = Ok h /\ (m_state m' = PreFlaging -> h = []) /\
        (not_early m' -> forall pre r1, b_rec v1 = pre ++ [r1] -> r_y r1 < H -> r_y r < H ->
           h = r_hops r1 ++ [(r_y r - r_y r1, r_x r - r_x r1)])).
      { assert (Hc : m_state m' = PreFlaging \/ not_early m').
        { unfold not_early. destruct (m_state m') eqn:Em'; try (right; split; discriminate); [contradiction|auto]. }
        destruct Hc as [Hc|Hc].
        - rewrite Hc. exists []. split; [reflexivity|]. split; auto. intros [Hn1 Hn2]. congruence.
        - destruct (Hlast Hc) as (pre & r1 & Epre).
          assert (Ha : exists h, analyse_hops v2 (rev (b_rec v2)) (rec_of (ev_of r)) = Ok h).
          { destruct (logged_head Hl) as [->|(r0 & rs' & -> & Hy0 & Hx0)].
            { rewrite Epre in F1. destruct pre; discriminate. }
            rewrite G3. destruct (b_rec v1) as [|q0 qs] eqn:Eq; [discriminate|]. cbn [rev].
            apply analyse_hops_ok; auto. cbn [map] in F1. injection F1 as Fe _. lia. }
          destruct Ha as (h & Ha). exists h. split; [|split].
          + destruct Hc as [Hc1 Hc2]. pose proof (i_nodisp (step_inv HI E)). destruct (m_state m'); try congruence; exact Ha.
          + intros Hp. destruct Hc as [_ Hc]. congruence.
          + intros _ pre' r1' Epre' Hy1 Hy2. rewrite G3, Epre', rev_app_distr in Ha. cbn [rev app] in Ha.
            rewrite analyse_hops_in in Ha by auto. injection Ha as <-. reflexivity. }
      destruct Hh2 as (h & Hh2 & Hh3 & Hh4). exists h. split; [|auto].
      unfold analyse_event. unfold usub at 1. rewrite Hls. replace (1 <=? length bs)%nat with true by lia. cbn [bind].
      change (r_mouse (rec_of (ev_of r))) with (r_mouse r). change (r_y (rec_of (ev_of r))) with (r_y r).
      change (r_x (rec_of (ev_of r))) with (r_x r). change (r_time (rec_of (ev_of r))) with (r_time r).
      replace (Z.to_nat (v_pix (b_meta v1))) with pix by (destruct Hv1 as (_ & _ & ->); lia).
      cbv zeta in Es |- *. rewrite Es. cbn [bind].
      assert (Hl2 : length (b_stream v2) = length (next_boards a m' bs)) by (rewrite <- G1; now rewrite map_length).
      unfold usub. rewrite Hl2.
      replace (1 <=? length (next_boards a m' bs))%nat with true
        by (unfold next_boards; destruct (1 <=? a)%nat; rewrite ?app_length; cbn [length]; lia).
      cbn [bind]. rewrite Hh2. reflexivity. }
    destruct Hev as (h & Hev & Hh1 & Hh2). rewrite Hev. cbn [bind].
    eexists. split; [reflexivity|]. cbn [b_rec b_stream b_meta b_delta b_state b_cur bw_rec].
    split; [rewrite G3, !map_app, F1; cbn [map]; f_equal; f_equal; rewrite Hr; reflexivity|].
    split; [exact G1|]. split; [congruence|]. split; [exact G2|]. split; [congruence|]. split; [congruence|].
    intros Hall. apply Forall_app in Hall as [Hall Hin]. inversion Hin as [|? ? [Hiny Hinx] _]; subst.
    specialize (F7 Hall). rewrite G3. destruct F7 as [F7 F8].
    assert (Hc : m_state m = Playing \/ (m_state m = Ready \/ m_state m = PreFlaging)) by (unfold live in Hlv; tauto).
    destruct Hc as [Hst|Hst].
    + (* after the opening *)
      assert (Hne : not_early m') by (unfold step in E; rewrite Hst in E; eapply step_playing_late in E; eauto).
      split; [destruct Hne; intros [?|?]; contradiction|]. intros _ _.
      destruct F8 as (pre & r0 & r1 & post & -> & M1 & M2 & M4 & M5); [congruence|congruence|].
      exists pre, r0, r1, (post ++ [r]). split; [rewrite <- app_assoc; reflexivity|]. split; [|split; [exact M2|split; [exact M4|]]].
      2:{ left. destruct M5 as [M5|M5]; [exact M5|]. subst post. destruct (logged_delta Hl) as [_ D2]. destruct (D2 Hst) as (p1 & qq & p2 & Eq & Hu & _).
          assert (Hi : In qq (pre ++ [r0] ++ [r1])) by (cbn [app]; rewrite Eq; apply in_or_app; right; left; reflexivity).
          rewrite app_assoc in Hi. apply in_app_or in Hi as [Hi|[Hi|[]]]; [|congruence]. rewrite Forall_forall in M4. specialize (M4 _ Hi). lia. }
      rewrite Hst in Hh. destruct Hh as (q & Eq & Hq).
      destruct (Hlast Hne) as (pre' & q' & Epre).
      destruct (@exists_last _ (r1 :: post)) as (mid & ql & Emid); [discriminate|].
      rewrite Emid in *.
      assert (Els : pre ++ r0 :: mid ++ [ql] = (pre ++ r0 :: mid) ++ [ql]) by (rewrite <- app_assoc; reflexivity).
      rewrite Els in Eq, Hall, F1. rewrite rev_app_distr in Eq. cbn [rev app last_inside] in Eq.
      apply Forall_app in Hall as [_ Hall]. inversion Hall as [|? ? [Hqy Hqx] _]; subst.
      replace ((H <=? r_y ql) || (W <=? r_x ql)) with false in Eq by lia. cbn [negb] in Eq. injection Eq as <-.
      rewrite Epre in F1. apply map_last in F1 as [_ Fq]. injection Fq as Q1 Q2 Q3 Q4 Q5 Q6 Q7 Q8 Q9 Q10 Q11 Q12 Q13 Q14.
      rewrite app_comm_cons, Emid, !map_app. cbn [map]. change (r_hops (snap _ _ _ _ _ _ _ _ h)) with h.
      rewrite (Hh2 Hne pre' q' Epre ltac:(lia) Hiny).
      rewrite Epre in M1. rewrite !map_app in M1. cbn [map] in M1. rewrite app_assoc in M1. apply app_inj_tail in M1 as [M1 M3].
      rewrite Epre, map_app. cbn [map].
      rewrite M3, M1, Hq, Q3, Q4. rewrite <- !app_assoc. cbn [app]. reflexivity.
    + destruct (F7 Hst) as [M1 M2].
      assert (Hhr : r_hops r = []) by (destruct (m_state m); auto; destruct Hst; discriminate).
      assert (Hc : m_state m' = PreFlaging \/ not_early m').
      { unfold not_early. destruct (m_state m') eqn:Em'; try (right; split; discriminate); [contradiction|auto]. }
      split.
      * intros Hc'. assert (Hp : m_state m' = PreFlaging) by (destruct Hc'; [contradiction|auto]).
        rewrite !map_app, M1, M2. cbn [map]. change (r_hops (snap _ _ _ _ _ _ _ _ h)) with h. rewrite Hhr, (Hh1 Hp). auto.
      * intros Hn1 Hn2. assert (Hne : not_early m') by (split; auto). destruct (Hlast Hne) as (pre' & q' & Epre).
        destruct (@exists_last _ rs) as (pre & r0 & Ers).
        { intros ->. rewrite Epre in F1. destruct pre'; discriminate. }
        exists pre, r0, r, []. subst rs. rewrite Epre in F1. apply map_last in F1 as [_ Fq].
        injection Fq as Q1 Q2 Q3 Q4 Q5 Q6 Q7 Q8 Q9 Q10 Q11 Q12 Q13 Q14.
        apply Forall_app in Hall as [_ Hall]. inversion Hall as [|? ? [Hqy Hqx] _]; subst.
        split; [rewrite <- app_assoc; reflexivity|]. split.
        -- rewrite map_app, M1. cbn [map]. change (r_hops (snap _ _ _ _ _ _ _ _ h)) with h.
           rewrite (Hh2 Hne pre' q' Epre ltac:(lia) Hiny), Hhr, Q3, Q4.
           rewrite Epre in M1. rewrite !map_app in M1. cbn [map] in M1. apply app_inj_tail in M1 as [_ M1]. rewrite M1. reflexivity.
        -- change (pre ++ [r0; r]) with (pre ++ [r0] ++ [r]). rewrite app_assoc. rewrite map_app, M2. cbn [map]. rewrite Hhr.
           rewrite (map_app _ _ [r]). split; [reflexivity|]. split; [exact (proj1 (logged_delta Hl) Hst)|auto].
Qed.
End Log.

(** ** Recording *)
Definition results (v : bv) (won : bool) (t : Z) : Prop :=
  v_completed (b_meta v) = won /\ v_rtime_ms (b_meta v) = t /\
  cal_cell_nums (v_board (b_meta v)) = Ok (b_cells v) /\ cal_op (v_board (b_meta v)) = Ok (b_op v) /\
  cal_isl (v_board (b_meta v)) = Ok (b_isl v) /\
  exists n, cal_bbbv (v_board (b_meta v)) = Ok n /\ v_bbbv (b_meta v) = Z.of_nat n.
Definition frame_of (v : bv) :=
  (v_height (b_meta v), v_width (b_meta v), v_pix (b_meta v), v_board (b_meta v)).

Lemma end_game_frame v won t stamp v' : end_game v won t stamp = Ok v' ->
  frame_of v' = frame_of v /\ b_rec v' = b_rec v /\ b_stream v' = b_stream v /\ b_mb v' = b_mb v /\
  b_state v' = b_state v /\ b_game_start v' = b_game_start v /\ results v' won (t - b_game_start v).
Proof.
  unfold end_game. intros E. apply bind_ok in E as (tm & Et & E). unfold u32sub in Et.
  destruct (Z.leb_spec (b_game_start v) t); [|discriminate]. injection Et as <-.
  apply bind_ok in E as (n & En & E). unfold cal_static_params in E.
  apply bind_ok in E as (nums & E1 & E). apply bind_ok in E as (op & E2 & E). apply bind_ok in E as (isl & E3 & E).
  injection E as <-. cbn in *. repeat (split; [reflexivity|]). unfold results. cbn.
  repeat (split; [first [reflexivity|assumption]|]). eauto.
Qed.

Lemma bv_step_rec v now stamp e p v' o m' a :
  let pix := Z.to_nat (v_pix (b_meta v)) in
  let old := m_state (b_mb v) in
  live old -> step (b_mb v) e (fst p / pix, snd p / pix)%nat = Ok (m', Some a) ->
  live (m_state m') \/ over (m_state m') -> m_state m' <> Ready ->
  bv_step v now stamp e p = Ok (v', o) ->
  exists tm h st0,
    (0 < pix)%nat /\
    (b_stream v <> [] -> st0 = b_stream v) /\
    (b_stream v = [] -> old <> Playing ->
       map gb_board st0 = [mkboard (v_height (b_meta v)) (v_width (b_meta v)) 10]) /\
    b_rec v' = b_rec v ++ [snap tm e (Z.of_nat (snd p) mod 65536) (Z.of_nat (fst p) mod 65536)
                              a (length st0 - 1) (length (b_stream v') - 1) m' h] /\
    map gb_board (b_stream v') = next_boards a m' (map gb_board st0) /\
    match old with
    | Playing => exists r, last_inside (Z.of_nat (v_height (b_meta v)) * v_pix (b_meta v))
                   (Z.of_nat (v_width (b_meta v)) * v_pix (b_meta v)) (rev (b_rec v)) = Ok r /\
                 h = r_hops r ++ [(Z.of_nat (fst p) - r_y r, Z.of_nat (snd p) - r_x r)]
    | _ => h = []
    end /\
    frame_of v' = frame_of v /\ b_mb v' = m' /\ b_state v' = m_state m' /\
    (m_state m' = PreFlaging -> b_game_start v' = b_game_start v) /\
    (m_state m' = Playing -> b_game_start v' = match old with Playing => b_game_start v | _ => tm end) /\
    (over (m_state m') -> results v' (match m_state m' with Win => true | _ => false end) (tm - b_game_start v)).
Proof.
  intros pix old Hlv Est Hm' Hnr E. unfold bv_step in E. fold old pix in E.
  assert (Hgo : forall r : R (bv * option nat),
    match old with Loss | Win | Display => Ok (v, Some 0%nat) | _ => r end = Ok (v', o) -> r = Ok (v', o)).
  { intros r Hr. destruct Hlv as [Hl|[Hl|Hl]]; rewrite Hl in Hr; exact Hr. }
  apply Hgo in E. clear Hgo. unfold udiv in E.
  destruct (Nat.eqb_spec pix 0) as [|Hp]; [discriminate|]. cbn [bind] in E. rewrite Est in E. cbn [bind] in E.
  set (v1 := bw_state (bw_mb v m') (m_state m')) in *.
  assert (Hv1 : frame_of v1 = frame_of v /\ b_rec v1 = b_rec v /\ b_stream v1 = b_stream v /\ b_mb v1 = m' /\
    b_state v1 = m_state m' /\ b_game_start v1 = b_game_start v) by (repeat (split; [reflexivity|]); reflexivity).
  clearbody v1.
  assert (E' : (let* (v2, tm) :=
                match m_state m' with
                | PreFlaging =>
                    match old with
                    | PreFlaging => Ok (v1, time_ms_between now (b_video_start v))
                    | _ => Ok (bw_video_start v1 now, time_ms_between now now)
                    end
                | Playing =>
                    match old with
                    | Playing => Ok (v1, time_ms_between now (b_video_start v))
                    | Ready =>
                        Ok (on_meta (bw_game_start (bw_video_start v1 now) (time_ms_between now now))
                                    (fun f => vw_start f stamp), time_ms_between now now)
                    | _ => Ok (on_meta (bw_game_start v1 (time_ms_between now (b_video_start v))) (fun f => vw_start f stamp), time_ms_between now (b_video_start v))
                    end
                | Loss => let* w := end_game v1 false (time_ms_between now (b_video_start v)) stamp in Ok (w, time_ms_between now (b_video_start v))
                | Win => let* w := end_game v1 true (time_ms_between now (b_video_start v)) stamp in Ok (w, time_ms_between now (b_video_start v))
                | _ => Ok (v1, time_ms_between now (b_video_start v))
                end in
              let* (v3, hops) :=
                match old with
                | Playing =>
                    let* r := last_inside (Z.of_nat (v_height (b_meta v2)) * v_pix (b_meta v2))
                                          (Z.of_nat (v_width (b_meta v2)) * v_pix (b_meta v2))
                                          (rev (b_rec v2)) in
                    Ok (v2, r_hops r ++ [(Z.of_nat (fst p) - r_y r, Z.of_nat (snd p) - r_x r)])
                | _ =>
                    if (length (b_stream v2) =? 0)%nat then
                      let g := set_game_board (gboard_new (Z.to_nat (v_mine_num (b_meta v2))))
                                 (mkboard (v_height (b_meta v2)) (v_width (b_meta v2)) 10) in
                      Ok (bw_stream v2 (b_stream v2 ++ [g]), [])
                    else Ok (v2, [])
                end in
              let* (v4, prior, next) :=
                (if (1 <=? a)%nat then
                   let g := set_game_board (gboard_new (Z.to_nat (v_mine_num (b_meta v3)))) (m_gb m') in
                   let v4 := bw_stream v3 (b_stream v3 ++ [g]) in
                   let* next := usub (length (b_stream v4)) 1 in
                   let* prior := usub (length (b_stream v4)) 2 in
                   Ok (v4, prior, next)
                 else
                   let* next := usub (length (b_stream v3)) 1 in
                   Ok (v3, next, next)) in
              let r := snap tm e (Z.of_nat (snd p) mod 65536) (Z.of_nat (fst p) mod 65536)
                            a prior next m' hops in
              Ok (bw_rec v4 (b_rec v4 ++ [r]), Some 0%nat)) = Ok (v', o)).
  { destruct (m_state m') eqn:Em'; try contradiction; exact E. }
  clear E. rename E' into E.
  apply bind_ok in E as ([v2 tm] & E2 & E). apply bind_ok in E as ([v3 h] & E3 & E).
  apply bind_ok in E as ([[v4 prior] next] & E4 & E). injection E as <- <-.
  assert (Hv2 : frame_of v2 = frame_of v /\ b_rec v2 = b_rec v /\ b_stream v2 = b_stream v /\ b_mb v2 = m' /\
    b_state v2 = m_state m' /\ (m_state m' = PreFlaging -> b_game_start v2 = b_game_start v) /\
    (m_state m' = Playing -> b_game_start v2 = match old with Playing => b_game_start v | _ => tm end) /\
    (over (m_state m') -> results v2 (match m_state m' with Win => true | _ => false end) (tm - b_game_start v))).
  { destruct Hv1 as (F1 & F2 & F3 & F4 & F5 & F6). unfold over.
    destruct (m_state m') eqn:Em'; try contradiction.
    - destruct old; injection E2 as <- <-; (repeat (split; [solve [auto]|]); intuition discriminate).
    - destruct old; injection E2 as <- <-; (repeat (split; [solve [auto|discriminate]|])); intuition discriminate.
    - apply bind_ok in E2 as (w & Ew & E2). injection E2 as <- <-. apply end_game_frame in Ew as (G1 & G2 & G3 & G4 & G5 & G6 & G7).
      rewrite F6 in G7. repeat (split; [solve [congruence|discriminate]|]). intros _; exact G7.
    - apply bind_ok in E2 as (w & Ew & E2). injection E2 as <- <-. apply end_game_frame in Ew as (G1 & G2 & G3 & G4 & G5 & G6 & G7).
      rewrite F6 in G7. repeat (split; [solve [congruence|discriminate]|]). intros _; exact G7.
    - exfalso. unfold live, over in Hm'. intuition discriminate. }
  clear E2 Hv1 v1. destruct Hv2 as (F1 & F2 & F3 & F4 & F5 & F6 & F7 & F8).
  injection F1 as Fh Fw Fp Fb.
  assert (Hv3 : exists st0, v3 = bw_stream v2 st0 /\ (b_stream v <> [] -> st0 = b_stream v) /\
     (b_stream v = [] -> old <> Playing ->
       map gb_board st0 = [mkboard (v_height (b_meta v)) (v_width (b_meta v)) 10]) /\
     match old with
    | Playing => exists r, last_inside (Z.of_nat (v_height (b_meta v)) * v_pix (b_meta v))
                   (Z.of_nat (v_width (b_meta v)) * v_pix (b_meta v)) (rev (b_rec v)) = Ok r /\
                 h = r_hops r ++ [(Z.of_nat (fst p) - r_y r, Z.of_nat (snd p) - r_x r)]
    | _ => h = []
    end).
  { assert (Heta : v2 = bw_stream v2 (b_stream v)) by (rewrite <- F3; now destruct v2).
    assert (Hc : old = Playing \/ old <> Playing) by (destruct old; auto; right; discriminate).
    destruct Hc as [Hc|Hc].
    - rewrite Hc in *. apply bind_ok in E3 as (r & Er & E3). injection E3 as <- <-. exists (b_stream v).
      split; [exact Heta|]. split; auto. split; [congruence|]. exists r. rewrite <- Fh, <- Fw, <- Fp, <- F2. auto.
    - assert (E3' : (if (length (b_stream v2) =? 0)%nat then
                      let g := set_game_board (gboard_new (Z.to_nat (v_mine_num (b_meta v2))))
                                 (mkboard (v_height (b_meta v2)) (v_width (b_meta v2)) 10) in
                      Ok (bw_stream v2 (b_stream v2 ++ [g]), [])
                    else Ok (v2, [])) = Ok (v3, h)) by (destruct old; try congruence; exact E3).
      clear E3. rewrite F3 in E3'. destruct (Nat.eqb_spec (length (b_stream v)) 0) as [H0|H0]; injection E3' as <- <-.
      + apply length_zero_iff_nil in H0. rewrite H0. cbn [app]. eexists. split; [reflexivity|]. split; [congruence|].
        split; [intros _ _; cbn; rewrite Fh, Fw; reflexivity|]. destruct old; try congruence; reflexivity.
      + exists (b_stream v). split; [exact Heta|]. split; auto. split; [intros Hn; rewrite Hn in H0; cbn in H0; lia|].
        destruct old; try congruence; reflexivity. }
  destruct Hv3 as (st0 & -> & S1 & S2 & S3). clear E3.
  exists tm, h, st0. split; [lia|]. split; [exact S1|]. split; [exact S2|].
  assert (H4 : exists st1, v4 = bw_stream v2 st1 /\ map gb_board st1 = next_boards a m' (map gb_board st0) /\
    next = (length st1 - 1)%nat /\ prior = (length st0 - 1)%nat).
  { unfold next_boards. destruct (1 <=? a)%nat.
    - cbn [b_stream bw_stream] in E4. apply bind_ok in E4 as (nx & En & E4). apply bind_ok in E4 as (pr & Ep & E4).
      injection E4 as <- <- <-. eexists. split; [reflexivity|]. split; [rewrite map_app; reflexivity|].
      unfold usub in *. destruct (1 <=? _)%nat in En; [|discriminate]. destruct (2 <=? _)%nat in Ep; [|discriminate].
      injection En as <-. injection Ep as <-. split; auto. rewrite app_length. cbn [length]. lia.
    - cbn [b_stream bw_stream] in E4. apply bind_ok in E4 as (nx & En & E4). injection E4 as <- <- <-.
      exists st0. split; auto. split; auto. unfold usub in *. destruct (1 <=? _)%nat in En; [|discriminate]. injection En as <-. auto. }
  destruct H4 as (st1 & -> & T1 & -> & ->). clear E4.
  cbn [b_rec b_stream b_mb b_state b_game_start bw_rec bw_stream]. rewrite F2.
  split; [reflexivity|]. split; [exact T1|]. split; [exact S3|].
  split; [unfold frame_of; cbn; congruence|]. split; [exact F4|]. split; [exact F5|]. split; [exact F6|]. split; [exact F7|]. exact F8.
Qed.

(** ** The invariant of a session *)
Definition log_of (v : bv) := logged (v_board (b_meta v)) (v_height (b_meta v)) (v_width (b_meta v))
                                     (Z.to_nat (v_pix (b_meta v))).
Definition ended (gs0 : Z) (v : bv) (d : Z) : Prop :=
  exists rs0 r1 m0 bs0 d0 t, b_rec v = rs0 ++ [r1] /\ log_of v rs0 m0 bs0 d0 /\
    results v (match b_state v with Win => true | _ => false end) t /\
    ((m_state m0 = Playing /\ d = d0 /\ t = r_time r1 - d0) \/
     ((m_state m0 = PreFlaging \/ m_state m0 = Ready) /\ t = r_time r1 - gs0)).
Record LI (gs0 : Z) (v : bv) : Prop := {
  li_legal : legal_board (v_height (b_meta v)) (v_width (b_meta v)) (v_board (b_meta v));
  li_row : (0 < v_height (b_meta v))%nat;
  li_state : b_state v = m_state (b_mb v);
  li_phase :
    (b_rec v = [] /\ b_stream v = [] /\ b_game_start v = gs0 /\
     exists w, b_mb v = blank (v_board (b_meta v)) (v_height (b_meta v)) (v_width (b_meta v)) w) \/
    exists m bs d, log_of v (b_rec v) m bs d /\ map gb_board (b_stream v) = bs /\ b_rec v <> [] /\
      m_state m = b_state v /\ (live (b_state v) -> b_mb v = m) /\
      (b_state v = PreFlaging -> b_game_start v = gs0) /\
      (b_state v = Playing -> b_game_start v = d) /\
      (over (b_state v) -> ended gs0 v d)
}.

Lemma fresh_LI v : fresh_game v -> LI (b_game_start v) v.
Proof.
  intros [b row column pix now v' Hl Hr E|v0 v1 b row column pix v' Hl Hr E1 E2].
  - unfold new_before_game in E. apply bind_ok in E as (bbbv & _ & E).
    unfold get_column in E. rewrite (ncolsR_ok (proj1 Hl) Hr) in E. cbn [bind] in E. rewrite (blank_new Hl Hr) in E.
    cbn [bind] in E. injection E as <-.
    unfold get_row. rewrite (nrows_ok (proj1 Hl)). cbn. split; cbn; auto.
    left. do 3 (split; [reflexivity|]). eexists. reflexivity.
  - unfold bv_reset in E1. apply bind_ok in E1 as (m & Em & E1).
    rewrite (blank_new (zero_board_legal row column) Hr) in Em. injection Em as <-. injection E1 as <-.
    unfold set_board in E2. destruct b as [|r0 b]; [discriminate|].
    cbn [b_state b_meta vw_rtime_ms vw_bbbv vw_pix vw_height vw_width v_width v_height] in E2.
    destruct (negb (column =? length r0)%nat || negb (row =? length (r0 :: b))%nat) eqn:Eq; [discriminate|].
    injection E2 as <-. pose proof (nrows_ok (proj1 Hl)) as Hn. cbn [length] in *.
    assert (Hc : length r0 = column) by lia. assert (Hr' : S (length b) = row) by lia. cbn. rewrite Hc, Hr'.
    split; cbn; auto. left. do 3 (split; [reflexivity|]). eexists. reflexivity.
Qed.

(** Calls that leave the game alone. *)
Definition core (v : bv) := (frame_of v, b_rec v, b_stream v, b_mb v, b_state v, b_game_start v,
  (v_completed (b_meta v), v_rtime_ms (b_meta v), v_bbbv (b_meta v)), (b_cells v, b_op v, b_isl v)).
Lemma core_LI gs0 v v' : core v' = core v -> LI gs0 v -> LI gs0 v'.
Proof.
  intros E [H1 H2 H3 H4]. unfold core, frame_of in E.
  injection E as E1 E2 E3 E4 E5 E6 E7 E8 E9 E10 E11 E12 E13 E14 E15.
  split; rewrite ?E1, ?E2, ?E4, ?E7, ?E8; auto.
  unfold log_of, ended, log_of, results. rewrite ?E1, ?E2, ?E3, ?E4, ?E5, ?E6, ?E7, ?E8, ?E9, ?E10, ?E11, ?E12, ?E13, ?E14, ?E15.
  exact H4.
Qed.

Lemma LI_mb gs0 v : LI gs0 v -> live (b_state v) -> Inv (b_mb v) /\ Early (b_mb v) /\
  m_board (b_mb v) = v_board (b_meta v) /\ m_row (b_mb v) = v_height (b_meta v) /\ m_column (b_mb v) = v_width (b_meta v).
Proof.
  intros [H1 H2 H3 H4] Hl. destruct H4 as [(_ & _ & _ & w & ->)|(m & bs & d & L & _ & _ & _ & E & _)].
  - split; [now apply blank_inv|]. split; [apply early_blank|auto].
  - rewrite (E Hl). destruct (logged_inv H1 H2 L) as (A & B & C & D & F). auto.
Qed.

Lemma LI_ready gs0 v : LI gs0 v -> b_state v = Ready -> b_rec v = [] /\ b_stream v = [] /\ b_game_start v = gs0 /\
  exists w, b_mb v = blank (v_board (b_meta v)) (v_height (b_meta v)) (v_width (b_meta v)) w.
Proof.
  intros [H1 H2 H3 H4] Hr. destruct H4 as [H4|(m & bs & d & L & _ & Hn & Hm & _)]; [exact H4|].
  exfalso. apply Hn. eapply logged_ready; [exact L|congruence].
Qed.

Lemma state_cases (st : game_state) : st <> Display -> live st \/ over st.
Proof. unfold live, over. destruct st; intros H; auto; congruence. Qed.

Lemma step_LI gs0 v now stamp e p v' o : LI gs0 v -> ok_call v (VStep now stamp e p) ->
  bv_step v now stamp e p = Ok (v', o) -> LI gs0 v'.
Proof.
  intros HL (Hk & Hy & Hx & Hpf & Hback) E. pose proof HL as [H1 H2 H3 H4].
  assert (Hnd : b_state v <> Display).
  { destruct H4 as [(_ & _ & _ & w & Eb)|(m & bs & d & L & _ & _ & Em & _)].
    - rewrite H3, Eb. discriminate.
    - rewrite <- Em. destruct (logged_inv H1 H2 L) as (A & _). apply (i_nodisp A). }
  destruct (state_cases Hnd) as [Hlv|Hov].
  2:{ (* over: nothing happens *)
      unfold bv_step in E. rewrite <- H3 in E. destruct Hov as [Ho|Ho]; rewrite Ho in E; injection E as <- <-; exact HL. }
  destruct (LI_mb HL Hlv) as (HI & HE & Hb & HR & HC).
  set (pix := Z.to_nat (v_pix (b_meta v))).
  assert (Hlm : live (m_state (b_mb v))) by (now rewrite <- H3).
  assert (Hstep : (0 < pix)%nat /\ exists m' o', step (b_mb v) e (fst p / pix, snd p / pix)%nat = Ok (m', o')).
  { unfold bv_step in E. fold pix in E.
    assert (Hgo : forall r : R (bv * option nat),
      match m_state (b_mb v) with Loss | Win | Display => Ok (v, Some 0%nat) | _ => r end = Ok (v', o) -> r = Ok (v', o)).
    { intros r Hr. destruct Hlm as [Hl|[Hl|Hl]]; rewrite Hl in Hr; exact Hr. }
    apply Hgo in E. unfold udiv in E. destruct (Nat.eqb_spec pix 0); [discriminate|]. cbn [bind] in E.
    apply bind_ok in E as ([m' o'] & Es & _). split; [lia|eauto]. }
  destruct Hstep as (Hp & m' & o' & Es).
  assert (Hnd' : m_state m' <> Display) by (apply (i_nodisp (step_inv HI Es))).
  assert (Hnone : forall m1, step (b_mb v) e (fst p / pix, snd p / pix)%nat = Ok (m1, None) \/ (exists a, o' = Some a /\ m1 = m' /\ m_state m' = Ready) ->
    v' = match o' with None => bw_mb v m' | Some _ => bw_rec (bw_stream (bw_state (bw_mb v m') (m_state m')) []) [] end).
  { intros m1 Hm1. unfold bv_step in E. fold pix in E.
    assert (Hgo : forall r : R (bv * option nat),
      match m_state (b_mb v) with Loss | Win | Display => Ok (v, Some 0%nat) | _ => r end = Ok (v', o) -> r = Ok (v', o)).
    { intros r Hr. destruct Hlm as [Hl|[Hl|Hl]]; rewrite Hl in Hr; exact Hr. }
    apply Hgo in E. unfold udiv in E. destruct (Nat.eqb_spec pix 0); [lia|]. cbn [bind] in E.
    rewrite Es in E. cbn [bind] in E. destruct o' as [a|]; [|now injection E as <- <-].
    destruct Hm1 as [Hm1|(a' & _ & _ & Hm1)]; [congruence|]. rewrite Hm1 in E |- *. now injection E as <- <-. }
  destruct o' as [a|].
  2:{ rewrite (Hnone m' (or_introl Es)). pose proof (step_none HI Es) as ->. replace (bw_mb v (b_mb v)) with v by (now destruct v). exact HL. }
  assert (Hdec : m_state m' = Ready \/ m_state m' <> Ready) by (destruct (m_state m'); auto; right; discriminate).
  destruct Hdec as [Hr|Hnr].
  - (* back in, or still in, the Ready state *)
    pose proof (Hnone m' (or_intror (ex_intro _ a (conj eq_refl (conj eq_refl Hr))))) as ->. clear Hnone.
    cbn beta iota. split; cbn; auto. left. do 2 (split; [reflexivity|]).
    assert (Hst : b_state v = Ready \/ b_state v = PreFlaging).
    { destruct Hlv as [Hl|[Hl|Hl]]; auto. exfalso. unfold step in Es. rewrite <- H3, Hl in Es.
      eapply step_playing_late in Es; [|congruence]. destruct Es. contradiction. }
    destruct Hst as [Hst|Hst].
    + destruct (LI_ready HL Hst) as (_ & _ & G & w & Ew). split; [exact G|].
      destruct (step_ready_cases HI ltac:(congruence) Es) as [(w' & ->)|(Hc & _)]; [|congruence].
      rewrite Ew. exists w'. reflexivity.
    + split.
      { destruct H4 as [(_ & _ & G & _)|(m & bs & d & _ & _ & _ & _ & _ & G & _)]; auto. }
      specialize (Hback Hst _ _ E). cbn in Hback. destruct (Hback Hr) as [B1 B2].
      destruct (step_counters HI Es) as [K1 K2 K3 _ _ _ _ _].
      exists (m_mouse m'). rewrite <- Hb, <- HR, <- HC, <- K1, <- K2, <- K3. apply blank_of; auto.
      * eapply step_inv; eauto.
      * eapply early_step; eauto.
  - (* recorded *)
    clear Hnone. pose proof (state_cases Hnd') as Hm'.
    destruct (bv_step_rec Hlm Es Hm' Hnr E) as (tm & h & st0 & _ & S1 & S2 & R1 & R2 & R3 & F1 & F2 & F3 & F4 & F5 & F6).
    fold pix in R1. injection F1 as Fh Fw Fp Fb.
    set (r := snap tm e (Z.of_nat (snd p) mod 65536) (Z.of_nat (fst p) mod 65536) a (length st0 - 1) (length (b_stream v') - 1) m' h) in *.
    assert (Hry : r_y r = Z.of_nat (fst p)) by (unfold r, snap; cbn; apply Z.mod_small; lia).
    assert (Hrx : r_x r = Z.of_nat (snd p)) by (unfold r, snap; cbn; apply Z.mod_small; lia).
    assert (Hat : at_pos pix r = (fst p / pix, snd p / pix)%nat) by (unfold at_pos; rewrite Hry, Hrx, !Nat2Z.id; reflexivity).
    (* the log before this event *)
    assert (Hlog : exists bs d, log_of v (b_rec v) (b_mb v) bs d /\ map gb_board st0 = bs /\
              (m_state (b_mb v) = Playing -> b_game_start v = d) /\
              (m_state (b_mb v) <> Playing -> b_game_start v = gs0)).
    { destruct H4 as [(G1 & G2 & G3 & w & G4)|(m & bs & d & L & G1 & G2 & G3 & G4 & G5 & G6 & G7)].
      - exists [mkboard (v_height (b_meta v)) (v_width (b_meta v)) 10], 0. 
        assert (Hw : w = UpUp).
        { assert (Hst : m_state (b_mb v) = Ready) by (rewrite G4; reflexivity).
          assert (Hw : m_mouse (b_mb v) = w) by (rewrite G4; reflexivity). rewrite <- Hw.
          destruct (step_ready_cases HI Hst Es) as [(w' & ->)|(_ & _ & [Hm|Hm])]; [cbn in Hnr; congruence|exact Hm|].
          apply Hpf; auto. congruence. }
        rewrite G1, G4, Hw. split; [constructor|]. split; [apply S2; auto; rewrite G4; discriminate|].
        split; [discriminate|auto].
      - exists bs, d. rewrite (G4 Hlv). rewrite G3. split; [exact L|]. split; [|split; [exact G6|]].
        + rewrite S1; [exact G1|]. intros Hn. rewrite Hn in G1. cbn in G1.
          pose proof (logged_bs L) as Hlb. rewrite <- G1 in Hlb. cbn in Hlb. lia.
        + intros Hnp. apply G5. destruct Hlv as [Hl|[Hl|Hl]]; [|exact Hl|congruence].
          exfalso. apply G2. eapply logged_ready; [exact L|congruence]. }
    destruct Hlog as (bs & d & L & Hbs & Hd1 & Hd2).
    assert (Hl0 : length st0 = length bs) by (rewrite <- Hbs; now rewrite map_length).
    assert (Hl1 : length (b_stream v') = length (next_boards a m' bs)) by (rewrite <- Hbs, <- R2; now rewrite map_length).
    assert (L' : log_of v' (b_rec v') m' (next_boards a m' bs) (next_delta a (b_mb v) tm d)).
    { rewrite R1. unfold log_of. rewrite Fh, Fw, Fp, Fb. fold pix.
      change tm with (r_time r). eapply LSnoc; [exact L|exact Hp|exact Hlm|exact Hk|lia|lia| |exact Hnr| |].
      - rewrite Hat. exact Es.
      - unfold r, no_path, snap. cbn. rewrite Hl0, Hl1. reflexivity.
      - destruct (m_state (b_mb v)) eqn:Eold; try (exact R3).
        destruct R3 as (r1 & Er & Eh). exists r1. fold pix. replace (Z.of_nat pix) with (v_pix (b_meta v)) by lia.
        split; [exact Er|]. rewrite Hry, Hrx. exact Eh. }
    split; rewrite ?Fh, ?Fw, ?Fb; auto; [congruence|].
    right. exists m', (next_boards a m' bs), (next_delta a (b_mb v) tm d).
    split; [exact L'|]. split; [now rewrite R2, Hbs|]. split; [rewrite R1; destruct (b_rec v); discriminate|].
    split; [auto|]. split; [auto|]. rewrite F3.
    assert (Hearly : m_state m' = PreFlaging -> m_state (b_mb v) <> Playing).
    { intros Hp1 Hp2. unfold step in Es. rewrite Hp2 in Es. eapply step_playing_late in Es; auto. destruct Es. congruence. }
    split; [intros Hp1; rewrite F4 by auto; auto|].
    split.
    + intros Hp1. rewrite F5 by auto. unfold next_delta.
      assert (Hc : m_state (b_mb v) = Playing \/ (m_state (b_mb v) = Ready \/ m_state (b_mb v) = PreFlaging)) by (clear - Hlm; unfold live in Hlm; tauto).
      destruct Hc as [Hc|Hc].
      * rewrite Hc, (Hd1 Hc). now destruct (1 <=? a)%nat.
      * destruct (pre_step_useful HI Hc Es) as [[[Hq|Hq] _]|[(_ & -> & _)|(Hq & _)]]; try congruence.
        cbn. destruct Hc as [Hc|Hc]; rewrite Hc; reflexivity.
    + intros Ho. specialize (F6 Ho).
      exists (b_rec v), r, (b_mb v), bs, d, (tm - b_game_start v).
      split; [exact R1|]. split; [unfold log_of; rewrite Fh, Fw, Fp, Fb; exact L|].
      split; [rewrite F3; exact F6|].
      assert (Hc : m_state (b_mb v) = Playing \/ (m_state (b_mb v) = PreFlaging \/ m_state (b_mb v) = Ready)) by (clear - Hlm; unfold live in Hlm; tauto).
      destruct Hc as [Hc|Hc].
      * left. split; [exact Hc|]. unfold next_delta. rewrite Hc, (Hd1 Hc). change (r_time r) with tm.
        split; [now destruct (1 <=? a)%nat|reflexivity].
      * right. split; [exact Hc|]. rewrite Hd2 by (destruct Hc; congruence). reflexivity.
Qed.

Lemma logged_any_board b b' row column pix rs m bs d :
  logged b row column pix rs m bs d -> Forall (fun r => r_mouse r = e_mv \/ r_mouse r = e_lc) rs ->
  logged b' row column pix rs (w_board m b') bs d.
Proof.
  induction 1 as [|rs m bs d r m' a Hl IH Hpix Hlv Hk Hx Hy E Hnr Hr Hh]; intros Hf; [constructor|].
  apply Forall_app in Hf as [Hf1 Hf2]. inversion Hf2 as [|? ? Hm _]; subst.
  change (next_boards a m' bs) with (next_boards a (w_board m' b') bs).
  change (next_delta a m (r_time r) d) with (next_delta a (w_board m b') (r_time r) d).
  eapply LSnoc; auto. now apply step_any_board.
Qed.

Lemma set_board_LI gs0 v b v' o : LI gs0 v -> ok_call v (VBoard b) -> set_board v b = Ok (v', o) -> LI gs0 v'.
Proof.
  intros HL Hok E. unfold set_board in E. destruct b as [|r0 b]; [discriminate|]. cbn [ok_call] in Hok.
  assert (Hsame : v' = v -> LI gs0 v') by (intros ->; exact HL).
  destruct (negb (v_width (b_meta v) =? length r0)%nat || negb (v_height (b_meta v) =? length (r0 :: b))%nat) eqn:Eq.
  { apply Hsame. destruct (b_state v); injection E as <- <-; reflexivity. }
  cbn [length] in Eq.
  assert (Hc : live (b_state v) \/ v' = v).
  { unfold live. destruct (b_state v); auto; injection E as <- <-; auto. }
  destruct Hc as [Hlv|Hc]; [|auto].
  destruct Hok as [[Ho|Ho]|[Hl Hf]].
  1,2: exfalso; rewrite Ho in Hlv; unfold live in Hlv; intuition discriminate.
  destruct (LI_mb HL Hlv) as (HI & HE & Hb & HR & HC).
  assert (Hv' : v' = bw_mb (on_meta (on_meta (on_meta (on_meta (on_meta v (fun f => vw_mine_num f (count_mines (r0 :: b))))
      (fun f => vw_height f (length (r0 :: b)))) (fun f => vw_width f (length r0)))
      (fun f => vw_level f (level_of (v_height f) (v_width f) (count_mines (r0 :: b))))) (fun f => vw_board f (r0 :: b)))
      (w_board (b_mb v) (r0 :: b))).
  { destruct Hlv as [H|[H|H]]; rewrite H in E; injection E as <- <-; reflexivity. }
  rewrite Hv'. clear E Hv' Hsame v'.
  assert (Eh : v_height (b_meta v) = S (length b)) by lia. assert (Ew : v_width (b_meta v) = length r0) by lia.
  destruct HL as [H1 H2 H3 H4]. split; cbn; rewrite <- ?Eh, <- ?Ew; auto.
  destruct H4 as [(G1 & G2 & G3 & w & G4)|(m & bs & d & L & G1 & G2 & G3 & G4 & G5 & G6 & G7)].
  - left. do 3 (split; [assumption|]). exists w. rewrite G4. reflexivity.
  - right. exists (w_board m (r0 :: b)), bs, d. split.
    { unfold log_of. cbn. now apply (logged_any_board (r0 :: b) L). }
    do 2 (split; [assumption|]). split; [exact G3|]. split; [intros _; now rewrite (G4 Hlv)|].
    split; [exact G5|]. split; [exact G6|].
    intros [Ho|Ho]; exfalso; rewrite Ho in Hlv; unfold live in Hlv; intuition discriminate.
Qed.

Lemma mb_LI gs0 v m : LI gs0 v -> over (b_state v) -> m_state m = m_state (b_mb v) -> LI gs0 (bw_mb v m).
Proof.
  intros [H1 H2 H3 H4] Ho Hm. split; cbn; auto; [congruence|].
  destruct H4 as [(_ & _ & _ & w & G4)|(m0 & bs & d & L & G1 & G2 & G3 & G4 & G5 & G6 & G7)].
  - exfalso. rewrite H3, G4 in Ho. destruct Ho; discriminate.
  - right. exists m0, bs, d. do 4 (split; [assumption|]). split.
    + intros Hl. exfalso. destruct Ho as [Ho|Ho]; rewrite Ho in Hl; unfold live in Hl; intuition discriminate.
    + split; [exact G5|]. split; [exact G6|]. exact G7.
Qed.

Lemma call_LI gs0 v c v' : LI gs0 v -> ok_call v c -> vcall1 v c = Ok v' -> LI gs0 v'.
Proof.
  intros HL Hok E. destruct c as [now stamp e p|b|c|c| |row column pix| |]; cbn [vcall1] in E.
  - apply bind_ok in E as ([v1 o] & E1 & E). injection E as <-. eapply step_LI; eauto.
  - apply bind_ok in E as ([v1 o] & E1 & E). injection E as <-. eapply set_board_LI; eauto.
  - injection E as <-. destruct c; try (eapply core_LI; [|exact HL]; cbn [bv_set]; unfold put;
      destruct (is_over (b_state v)); reflexivity).
    + (* pixel size in Ready *) cbn [ok_call] in Hok. cbn [bv_set]. rewrite Hok. cbn [is_state negb andb fst].
      destruct (LI_ready HL Hok) as (G1 & G2 & G3 & w & G4). destruct HL as [H1 H2 H3 _].
      split; cbn; auto. left. eauto 10.
    + cbn [ok_call] in Hok. cbn [bv_set]. rewrite Hok. exact HL.
    + eapply core_LI; [|exact HL]. cbn [bv_set]. destruct (_ && _); reflexivity.
  - apply bind_ok in E as ([v1 o] & E1 & E). injection E as <-. unfold bv_set_checksum in E1.
    apply bind_ok in E1 as ([s o'] & _ & E1). injection E1 as <- <-. eapply core_LI; [|exact HL]. reflexivity.
  - apply bind_ok in E as (raw & _ & E). injection E as <-. eapply core_LI; [|exact HL]. reflexivity.
  - destruct Hok.
  - injection E as <-. unfold win_then_flag_all_mine. destruct (m_state (b_mb v)) eqn:Em; try exact HL.
    apply mb_LI; auto. left. rewrite (li_state HL). exact Em.
  - unfold loss_then_open_all_mine in E. destruct (m_state (b_mb v)) eqn:Em; try (injection E as <-; exact HL).
    apply bind_ok in E as (g & _ & E). injection E as <-.
    apply mb_LI; auto. right. rewrite (li_state HL). exact Em.
Qed.
Lemma session_LI gs0 cs : forall v v', LI gs0 v -> ok_session v cs -> vexec v cs = Ok v' -> LI gs0 v'.
Proof.
  induction cs as [|c cs IH]; intros v v' HL Hok E; unfold vexec in E; cbn [foldM] in E; [now injection E as <-|].
  apply bind_ok in E as (v1 & E1 & E). destruct Hok as [H1 H2]. eapply IH; [|exact (H2 _ E1)|exact E].
  eapply call_LI; eauto.
Qed.

(** ** C58 *)
Lemma replay_master : forall v0 cs v (has_checksum : bool) raw now,
  fresh_game v0 -> ok_session v0 cs -> vexec v0 cs = Ok v -> over (b_state v) ->
  fits (saved_video v) -> length (v_checksum (b_meta v)) = 32%nat ->
  generate_evf (saved_video v) has_checksum = Ok raw ->
  exists f w, parse_video raw 0%nat = (Ok f, length raw) /\ analyse (of_file f raw now) = Ok w /\
    map no_path (b_rec w) = map no_path (b_rec v) /\
    map gb_board (b_stream w) = map gb_board (b_stream v) /\
    (v_completed (b_meta w) = v_completed (b_meta v) /\
     (v_completed (b_meta v) = true <-> b_state v = Win)) /\
    b_op w = b_op v /\ b_isl w = b_isl v /\ b_cells w = b_cells v /\ v_bbbv (b_meta w) = v_bbbv (b_meta v) /\
    v_board (b_meta w) = v_board (b_meta v) /\ v_rtime_ms (b_meta w) = v_rtime_ms (b_meta v) /\
    b_state w = Display /\
    exists m bs d, log_of v (b_rec v) m bs d /\ b_delta w = d /\ ended (b_game_start v0) v d /\ m_state m = b_state v /\
    (Forall (fun r => r_y r < Z.of_nat (v_height (b_meta v)) * v_pix (b_meta v) /\
                      r_x r < Z.of_nat (v_width (b_meta v)) * v_pix (b_meta v)) (b_rec v) -> hops_match m (b_rec v) (b_rec w)).
Proof.
  intros v0 cs v hc raw now Hf Hok E Hov Hfit Hck Hg.
  pose proof (session_LI (fresh_LI Hf) Hok E) as [H1 H2 H3 H4].
  destruct H4 as [(_ & _ & _ & w & G4)|(m & bs & d & L & G1 & G2 & G3 & _ & _ & _ & G7)].
  { exfalso. rewrite H3, G4 in Hov. destruct Hov; discriminate. }
  destruct (G7 Hov) as (rs0 & r1 & m0 & bs0 & d0 & t & Q1 & Q2 & (P1 & P1' & P2 & P3 & P4 & P5) & Q3).
  assert (Hk : Forall (fun e => nine_kinds (ve_mouse e)) (v_events (saved_video v))).
  { cbn. clear - L. unfold log_of in L. induction L; [constructor|]. rewrite map_app. apply Forall_app. split; [exact IHL|]. cbn [map]. constructor; [assumption|constructor]. }
  destruct (C20_evf_round_trip Hfit ltac:(cbn; lia) Hk Hck Hg) as (f & Ep & V1 & V2 & V3 & V4 & V5 & V6 & V7 & V8 & V9 & V10 & V11 & V12 & _).
  destruct Hfit as (Ph & Pw & _ & Pp & _). cbn in Ph, Pw, Pp. unfold byte in Pp.
  set (g0 := set_game_board (gboard_new (Z.to_nat (v_mine_num f))) (mkboard (v_height f) (v_width f) 10)).
  set (w0 := bw_rec (bw_stream (of_file f raw now) [g0]) []).
  assert (Hw0 : shows (v_height (b_meta v)) (v_width (b_meta v)) (Z.to_nat (v_pix (b_meta v))) w0).
  { unfold shows, w0. cbn. rewrite V1, V2, V9. cbn. split; auto. split; auto. lia. }
  assert (Pp' : (Z.to_nat (v_pix (b_meta v)) < 256)%nat) by (clear - Pp; destruct Pp as [Pa Pb]; apply Nat2Z.inj_lt; rewrite Z2Nat.id by exact Pa; exact Pb).
  destruct (replay_logged H1 H2 Ph Pw Pp' L Hw0 eq_refl) as (w1 & E1 & F1 & F2 & F3 & F4 & F5 & F6 & F7).
  { unfold w0. cbn. now rewrite V1, V2. }
  { reflexivity. }
  exists f. unfold analyse. cbn [b_can of_file negb b_meta vw_events v_board b_stream bw_stream app b_rec].
  change (v_board (vw_events f [])) with (v_board f). rewrite V4. cbn [saved_video vw_events v_board].
  rewrite (blank_new H1 H2). cbn [bind v_mine_num v_height v_width vw_events]. fold g0.
  change (bw_rec (bw_stream (of_file f raw now) [g0]) []) with w0.
  rewrite V5. cbn [saved_video vw_events v_events]. rewrite map_map. rewrite E1. cbn [bind].
  unfold cal_static_params. cbn [on_meta b_meta bw_meta vw_completed v_board]. rewrite F3.
  change (v_board (b_meta w0)) with (v_board f). rewrite V4. cbn [saved_video vw_events v_board].
  rewrite P2. cbn [bind]. rewrite P3. cbn [bind]. rewrite P4. cbn [bind].
  eexists. split; [exact Ep|]. split; [reflexivity|].
  cbn [b_rec b_stream b_meta bw_isl bw_op bw_cells on_meta bw_meta b_op b_isl b_cells vw_completed v_completed v_bbbv v_board v_rtime_ms].
  split; [exact F1|]. split; [congruence|]. split.
  { rewrite P1, G3. split; [reflexivity|]. destruct Hov as [Ho|Ho]; rewrite Ho; split; congruence. }
  do 3 (split; [reflexivity|]). rewrite F3.
  split; [exact V11|]. split; [exact V4|]. split; [exact V12|].
  split; [exact F5|]. exists m, bs, d. split; [exact L|]. split; [exact F4|]. split; [exact (G7 Hov)|]. split; [exact G3|].
  intros Hin. apply F7. replace (Z.of_nat (Z.to_nat (v_pix (b_meta v)))) with (v_pix (b_meta v)) by (rewrite Z2Nat.id; tauto). exact Hin.
Qed.

(** For every session on a fresh game that ends the game, and every way of saving it: the file is read
    back, the replay runs through, and for every event it shows what was recorded live (time, position,
    usefulness, boards before and after, mouse state, all counters), the same sequence of boards, and
    the same outcome and board figures. *)
Theorem C58_replay_partial : forall v0 cs v (has_checksum : bool) raw now,
  fresh_game v0 -> ok_session v0 cs -> vexec v0 cs = Ok v -> over (b_state v) ->
  fits (saved_video v) -> length (v_checksum (b_meta v)) = 32%nat ->
  generate_evf (saved_video v) has_checksum = Ok raw ->
  exists f w, parse_video raw 0%nat = (Ok f, length raw) /\ analyse (of_file f raw now) = Ok w /\
    map no_path (b_rec w) = map no_path (b_rec v) /\
    map gb_board (b_stream w) = map gb_board (b_stream v) /\
    (v_completed (b_meta w) = v_completed (b_meta v) /\
     (v_completed (b_meta v) = true <-> b_state v = Win)) /\
    b_op w = b_op v /\ b_isl w = b_isl v /\ b_cells w = b_cells v /\ v_bbbv (b_meta w) = v_bbbv (b_meta v) /\
    v_board (b_meta w) = v_board (b_meta v) /\ v_rtime_ms (b_meta w) = v_rtime_ms (b_meta v).
Proof.
  intros v0 cs v hc raw now H1 H2 H3 H4 H5 H6 H7.
  destruct (replay_master now H1 H2 H3 H4 H5 H6 H7) as (f & w & E1 & E2 & A1 & A2 & A3 & A4 & A5 & A6 & A7 & A8 & A9 & _).
  exists f, w. auto 15.
Qed.
Print Assumptions C58_replay_partial.

(** The path length: if all events are inside the board, the replay counts one more hop than the
    recording did, the one from the press to the release of the opening click ([r0] to [r1], the first event that
    opened a cell, or the mine that ended the game at once). [hops] are the moves whose lengths add up
    to the path. *)
Theorem C58_path_differs_by_the_opening_click : forall v0 cs v (has_checksum : bool) raw now f w,
  fresh_game v0 -> ok_session v0 cs -> vexec v0 cs = Ok v -> over (b_state v) ->
  fits (saved_video v) -> length (v_checksum (b_meta v)) = 32%nat ->
  generate_evf (saved_video v) has_checksum = Ok raw ->
  fst (parse_video raw 0%nat) = Ok f -> analyse (of_file f raw now) = Ok w ->
  Forall (fun r => r_y r < Z.of_nat (v_height (b_meta v)) * v_pix (b_meta v) /\
                   r_x r < Z.of_nat (v_width (b_meta v)) * v_pix (b_meta v)) (b_rec v) ->
  exists pre r0 r1 post, b_rec v = pre ++ r0 :: r1 :: post /\
    map r_hops (pre ++ [r0; r1]) = map (fun _ => []) (pre ++ [r0; r1]) /\
    map r_hops (b_rec w) =
      map (fun _ => []) (pre ++ [r0]) ++
      map (fun r => (r_y r1 - r_y r0, r_x r1 - r_x r0) :: r_hops r) (r1 :: post) /\
    Forall (fun r => (r_useful r < 2)%nat) (pre ++ [r0]) /\ ((2 <= r_useful r1)%nat \/ post = []).
Proof.
  intros v0 cs v hc raw now f w H1 H2 H3 H4 H5 H6 H7 E1 E2 Hin.
  destruct (replay_master now H1 H2 H3 H4 H5 H6 H7) as (f' & w' & E1' & E2' & _ & _ & _ & _ & _ & _ & _ & _ & _ & _ & m & bs & d & _ & _ & _ & Hm & Hh).
  rewrite E1' in E1. injection E1 as <-. rewrite E2' in E2. injection E2 as <-.
  destruct (Hh Hin) as [_ Hh2]. destruct Hh2 as (pre & r0 & r1 & post & A & B & C & D & D').
  - rewrite Hm. destruct H4 as [H|H]; rewrite H; discriminate.
  - rewrite Hm. destruct H4 as [H|H]; rewrite H; discriminate.
  - exists pre, r0, r1, post. auto 6.
Qed.
Print Assumptions C58_path_differs_by_the_opening_click.

(** ** C59 *)
Lemma opened_unique rs t pre r0 post : opened_at rs t -> rs = pre ++ r0 :: post ->
  (2 <= r_useful r0)%nat -> Forall (fun r => (r_useful r < 2)%nat) pre -> t = r_time r0.
Proof.
  intros (pre' & r' & post' & E & Hu & Ht & Hf) E2 Hu2 Hf2. rewrite E in E2. clear E. revert pre E2 Hf2.
  induction pre' as [|x pre' IH]; intros [|y pre] E2 Hf2; cbn in E2.
  - injection E2 as <- _. auto.
  - injection E2 as <- _. inversion Hf2; lia.
  - injection E2 as -> _. inversion Hf; lia.
  - injection E2 as <- E2. inversion Hf; inversion Hf2; subst. eauto.
Qed.

(** [r0] is the opening click (the first event that opened a cell), [r1] a later event that ended the
    game: the result time is the time between them. *)
Theorem C59_result_time_partial : forall v0 cs v pre r0 mid r1,
  fresh_game v0 -> ok_session v0 cs -> vexec v0 cs = Ok v -> over (b_state v) ->
  b_rec v = pre ++ r0 :: mid ++ [r1] ->
  (2 <= r_useful r0)%nat -> Forall (fun r => (r_useful r < 2)%nat) pre ->
  v_rtime_ms (b_meta v) = r_time r1 - r_time r0.
Proof.
  intros v0 cs v pre r0 mid r1 Hf Hok E Hov Er Hu Hpre.
  pose proof (session_LI (fresh_LI Hf) Hok E) as [H1 H2 H3 H4].
  destruct H4 as [(G1 & _)|(m & bs & d & L & G1 & G2 & G3 & _ & _ & _ & G7)]; [rewrite G1 in Er; destruct pre; discriminate|].
  destruct (G7 Hov) as (rs0 & q1 & m0 & bs0 & d0 & t & Q1 & Q2 & (_ & Ht & _) & Q3).
  rewrite Q1 in Er. rewrite app_comm_cons, app_assoc in Er. apply app_inj_tail in Er as [Er ->].
  destruct (logged_delta H1 H2 Q2) as [D1 D2].
  destruct Q3 as [(Hp & _ & Et)|(Hp & _)].
  - rewrite Ht, Et. f_equal. eapply opened_unique; [exact (D2 Hp)|exact Er|exact Hu|exact Hpre].
  - exfalso. specialize (D1 ltac:(tauto)). rewrite Er in D1. apply Forall_app in D1 as [_ D1]. inversion D1; lia.
Qed.
Print Assumptions C59_result_time_partial.

(** The same clock in the replay: it starts at minus the time of the opening click, and ends at the
    result time. *)
Theorem C59_replay_clock : forall v0 cs v (has_checksum : bool) raw now f w pre r0 mid r1,
  fresh_game v0 -> ok_session v0 cs -> vexec v0 cs = Ok v -> over (b_state v) ->
  fits (saved_video v) -> length (v_checksum (b_meta v)) = 32%nat ->
  generate_evf (saved_video v) has_checksum = Ok raw ->
  fst (parse_video raw 0%nat) = Ok f -> analyse (of_file f raw now) = Ok w ->
  b_rec v = pre ++ r0 :: mid ++ [r1] ->
  (2 <= r_useful r0)%nat -> Forall (fun r => (r_useful r < 2)%nat) pre ->
  get_video_start_time w = Some (- r_time r0) /\
  get_video_end_time w = Ok (Some (v_rtime_ms (b_meta v))) /\
  get_rtime_ms w = Some (v_rtime_ms (b_meta v)).
Proof.
  intros v0 cs v hc raw now f w pre r0 mid r1 H1 H2 H3 H4 H5 H6 H7 E1 E2 Er Hu Hpre.
  pose proof (@C59_result_time_partial v0 cs v pre r0 mid r1 H1 H2 H3 H4 Er Hu Hpre) as Hrt.
  pose proof (session_LI (fresh_LI H1) H2 H3) as [I1 I2 _ _].
  destruct (replay_master now H1 H2 H3 H4 H5 H6 H7) as (f' & w' & E1' & E2' & A1 & _ & _ & _ & _ & _ & _ & _ & A9 & Ad & m & bs & d & _ & Hd & He & Hm & _).
  rewrite E1' in E1. injection E1 as <-. rewrite E2' in E2. injection E2 as <-.
  destruct He as (rs0 & q1 & m0 & bs0 & d0 & t & Q1 & Q2 & _ & Q3).
  assert (Hd0 : d = r_time r0).
  { rewrite Q1 in Er. rewrite app_comm_cons, app_assoc in Er. apply app_inj_tail in Er as [Er ->].
    destruct (logged_delta I1 I2 Q2) as [D1 D2]. destruct Q3 as [(Hp & -> & _)|(Hp & _)].
    - eapply opened_unique; [exact (D2 Hp)|exact Er|exact Hu|exact Hpre].
    - exfalso. specialize (D1 ltac:(tauto)). rewrite Er in D1. apply Forall_app in D1 as [_ D1]. inversion D1; lia. }
  unfold get_video_start_time, get_video_end_time, get_rtime_ms. rewrite Ad, Hd, Hd0, A9.
  split; [reflexivity|]. split; [|reflexivity].
  rewrite Er in A1. rewrite app_comm_cons, app_assoc in A1.
  destruct (@exists_last _ (b_rec w')) as (l & q & El); [intros En; rewrite En in A1; destruct (pre ++ r0 :: mid); discriminate|].
  rewrite El in A1. apply map_last in A1 as [_ A1]. apply (f_equal r_time) in A1. cbn in A1.
  rewrite El, rev_app_distr. cbn. rewrite A1, Hrt. reflexivity.
Qed.
Print Assumptions C59_replay_clock.

(** A game decided by its opening click: the result time is counted from the stale start of the
    previous game on the object (0 for a new object), not from the opening click. *)
Theorem C59_one_click_game : forall v0 cs v pre r1,
  fresh_game v0 -> ok_session v0 cs -> vexec v0 cs = Ok v -> over (b_state v) ->
  b_rec v = pre ++ [r1] -> Forall (fun r => (r_useful r < 2)%nat) pre ->
  v_rtime_ms (b_meta v) = r_time r1 - b_game_start v0.
Proof.
  intros v0 cs v pre r1 Hf Hok E Hov Er Hpre.
  pose proof (session_LI (fresh_LI Hf) Hok E) as [H1 H2 H3 H4].
  destruct H4 as [(G1 & _)|(m & bs & d & L & G1 & G2 & G3 & _ & _ & _ & G7)]; [rewrite G1 in Er; destruct pre; discriminate|].
  destruct (G7 Hov) as (rs0 & q1 & m0 & bs0 & d0 & t & Q1 & Q2 & (_ & Ht & _) & Q3).
  rewrite Q1 in Er. apply app_inj_tail in Er as [-> ->].
  destruct Q3 as [(Hp & _)|(_ & Et)]; [|congruence]. exfalso.
  destruct (logged_delta H1 H2 Q2) as [_ D2]. destruct (D2 Hp) as (p1 & q & p2 & -> & Hu & _).
  apply Forall_app in Hpre as [_ Hpre]. inversion Hpre; lia.
Qed.
Print Assumptions C59_one_click_game.

(** ** A concrete game: one click opens a number, the second wins; the game is signed, its mines are
    shown and it is saved. All hypotheses of C58 and C59 hold. *)
Definition replay_session : list vcall :=
  [VSet (SetPlayer [65]); VStep 900000 [48] e_mv (24, 8)%nat; VStep 1000000 [48] e_rc (40, 40)%nat;
   VStep 1010000 [48] e_rr (40, 40)%nat;
   VStep 1020000 [48] e_lc (8, 24)%nat; VStep 1100000 [48] e_lr (8, 24)%nat;
   VStep 1150000 [49] e_mv (20, 20)%nat; VStep 1200000 [50] e_rc (9, 40)%nat; VStep 1250000 [50] e_rr (9, 40)%nat;
   VStep 1300000 [51] e_lc (8, 8)%nat; VStep 1350000 [52] e_lr (8, 8)%nat;
   VStep 1400000 [52] e_rc (41, 40)%nat; VStep 1410000 [52] e_rr (41, 40)%nat;
   VStep 1500000 [52] e_lc (41, 41)%nat; VStep 1600000 [52] e_lr (41, 41)%nat; VFlagAll; VSet (SetFair true); VSet (SetPlayer [65]); VGenerate;
   VChecksum (repeat 7 32)].

(** A decidable form of [ok_session] (without boards and pixel sizes), for the concrete cases. *)
Definition is_nine (e : event) : bool :=
  match e with e_mv | e_lc | e_lr | e_rc | e_rr | e_mc | e_mr | e_pf | e_cc => true | _ => false end.
Definition ok_callb (v : bv) (c : vcall) : bool :=
  match c with
  | VStep now stamp e p =>
      is_nine e && (Z.of_nat (fst p) <? 65536) && (Z.of_nat (snd p) <? 65536) &&
      (match e with e_pf => false | _ => true end) &&
      (match b_state v with
       | PreFlaging => match bv_step v now stamp e p with
                       | Ok (v', _) => match b_state v' with
                                       | Ready => (m_ce (b_mb v') =? 0)%nat && (m_double (b_mb v') =? 0)%nat
                                       | _ => true
                                       end
                       | _ => true
                       end
       | _ => true
       end)
  | VSet (SetPixSize _) | VSet (SetRtime _) | VReset _ _ _ | VBoard _ => false
  | _ => true
  end.
Fixpoint ok_sessionb (v : bv) (cs : list vcall) : bool :=
  match cs with
  | [] => true
  | c :: cs' => ok_callb v c && match vcall1 v c with Ok v' => ok_sessionb v' cs' | _ => true end
  end.
Lemma ok_callb_ok v c : ok_callb v c = true -> ok_call v c.
Proof.
  destruct c as [now stamp e p|b|c|c| |? ? ?| |]; cbn; try exact (fun _ => I); try discriminate.
  - rewrite !andb_true_iff. intros ((((H1 & H2) & H3) & H4) & H5).
    split; [destruct e; try discriminate; unfold nine_kinds; cbn; tauto|].
    split; [lia|]. split; [lia|]. split; [intros _ ->; discriminate|].
    intros Hst v' o E Hr. rewrite Hst, E, Hr in H5. apply andb_true_iff in H5. lia.
  - destruct c; try exact (fun _ => I); discriminate.
Qed.
Lemma ok_sessionb_ok cs : forall v, ok_sessionb v cs = true -> ok_session v cs.
Proof.
  induction cs as [|c cs IH]; intros v; [exact (fun _ => I)|]. cbn [ok_sessionb ok_session].
  rewrite andb_true_iff. intros [H1 H2]. split; [now apply ok_callb_ok|]. intros v' E. rewrite E in H2. auto.
Qed.
Definition game_or (r : R bv) : bv := match r with Ok v => v | _ => of_file demo_video [] 0 end.
Definition replay_game : bv := Eval vm_compute in game_or (new_before_game demo_board 16 800000).
Definition replay_done : bv := Eval vm_compute in game_or (vexec replay_game replay_session).
Definition replay_raw : list Z := Eval vm_compute in
  match generate_evf (saved_video replay_done) true with Ok raw => raw | _ => [] end.
Definition split_at (n : nat) (rs : list rec) : list rec * rec * list rec * rec :=
  (firstn n rs, nth n rs (rec_of (VEv e_mv 0 0 0)), firstn (length rs - n - 2) (skipn (S n) rs),
   last rs (rec_of (VEv e_mv 0 0 0))).
Example C58_C59_case : exists raw pre r0 mid r1,
  new_before_game demo_board 16 800000 = Ok replay_game /\ fresh_game replay_game /\
  ok_session replay_game replay_session /\ vexec replay_game replay_session = Ok replay_done /\
  b_state replay_done = Win /\ over (b_state replay_done) /\ fits (saved_video replay_done) /\
  v_checksum (b_meta replay_done) = repeat 7 32 /\ generate_evf (saved_video replay_done) true = Ok raw /\
  length (b_rec replay_done) = 13%nat /\ v_player (b_meta replay_done) = [65] /\
  b_rec replay_done = pre ++ r0 :: mid ++ [r1] /\ (2 <= r_useful r0)%nat /\
  Forall (fun r => (r_useful r < 2)%nat) pre /\
  r_time r0 = 100 /\ v_rtime_ms (b_meta replay_done) = 500.
Proof.
  assert (E0 : new_before_game demo_board 16 800000 = Ok replay_game) by (vm_compute; reflexivity).
  assert (Hok : ok_session replay_game replay_session).
  { apply ok_sessionb_ok. vm_compute. reflexivity. }
  assert (Hfit : fits (saved_video replay_done)).
  { unfold fits, byte, u16, u24, text, event_fits, u16, u24.
    cbn [saved_video replay_done vw_events b_meta b_rec map ev_of v_height v_width v_mine_num v_pix v_mode v_bbbv v_rtime_ms v_software v_player
       v_race v_uniq v_start v_end v_country v_uuid v_board v_events].
    do 7 (split; [lia|]). split; [repeat (apply Forall_cons; [repeat (apply Forall_cons; [lia|]); apply Forall_nil|]); apply Forall_nil|].
    split; [|exact demo_legal]. repeat (apply Forall_cons; [unfold ev_of; cbn [ve_ms ve_x ve_y r_time r_x r_y]; lia|]). constructor. }
  set (q := split_at 3 (b_rec replay_done)).
  exists replay_raw, (fst (fst (fst q))), (snd (fst (fst q))), (snd (fst q)), (snd q).
  split; [exact E0|].
  split; [apply (@FG_new demo_board 3 3 16 800000); [exact demo_legal|lia|exact E0]|].
  split; [exact Hok|]. split; [vm_compute; reflexivity|].
  split; [reflexivity|]. split; [left; reflexivity|].
  split; [exact Hfit|]. split; [reflexivity|]. split; [vm_compute; reflexivity|].
  split; [reflexivity|]. split; [reflexivity|]. split; [vm_compute; reflexivity|].
  split; [vm_compute; lia|]. split; [vm_compute; repeat constructor|]. split; [reflexivity|]. reflexivity.
Qed.

(** ** Why C58 and C59 are restricted: without the conditions of [ok_session] they fail. *)
Definition at_ms (t : Z) (e : event) (p : nat * nat) : vcall := VStep (t * 1000) [48] e p.
(** What happens when the video is saved, loaded and analysed. *)
Definition replay_of (v : bv) : R bv :=
  let* raw := generate_evf (saved_video v) false in
  let* f := fst (parse_video raw 0%nat) in
  analyse (of_file f raw 0).

Definition unflag_session : list vcall :=
  [at_ms 1000 e_rc (8, 40)%nat; at_ms 1010 e_rr (8, 40)%nat; at_ms 1020 e_rc (8, 40)%nat;
   at_ms 1030 e_rr (8, 40)%nat; at_ms 1040 e_lc (8, 8)%nat; at_ms 1100 e_lr (8, 8)%nat].
Definition board_session : list vcall :=
  [at_ms 1000 e_rc (8, 40)%nat; at_ms 1010 e_rr (8, 40)%nat; VBoard [[-1; 1; 0]; [1; 1; 0]; [0; 0; 0]];
   at_ms 1040 e_lc (8, 8)%nat; at_ms 1100 e_lr (8, 8)%nat].
Definition l_session : list vcall :=
  [at_ms 1000 e_lc (8, 24)%nat; at_ms 1010 e_lr (8, 24)%nat; at_ms 1020 e_l (8, 40)%nat;
   at_ms 1040 e_lc (8, 8)%nat; at_ms 1100 e_lr (8, 8)%nat].
Definition click_session : list vcall := [at_ms 1040 e_lc (8, 8)%nat; at_ms 1100 e_lr (8, 8)%nat].

(** The events are all of the nine kinds unless said otherwise, the object is new.
    1. A mine is flagged and unflagged before the game: the recording counts that effective click, the
       replay does not (ce 2 against 1 at the end).
    2. The board is replaced after a flag was put on a mine: likewise.
    3. An event of another kind (here "l", which the game ignores) cannot be replayed: it crashes. *)
Theorem C58_refuted :
  (exists v w, vexec replay_game unflag_session = Ok v /\
    b_state v = Win /\ replay_of v = Ok w /\
    map r_ce (b_rec v) = [1; 2]%nat /\ map r_ce (b_rec w) = [0; 1]%nat) /\
  (exists v w, vexec replay_game board_session = Ok v /\
    b_state v = Loss /\ replay_of v = Ok w /\
    map r_ce (b_rec v) = [1; 1; 1; 1]%nat /\ map r_ce (b_rec w) = [0; 0; 0; 0]%nat) /\
  (exists v, vexec replay_game l_session = Ok v /\
    b_state v = Win /\ replay_of v = Panic).
Proof.
  split; [|split].
  - exists (game_or (vexec replay_game unflag_session)), (game_or (replay_of (game_or (vexec replay_game unflag_session)))).
    split; [vm_compute; reflexivity|]. split; [vm_compute; reflexivity|]. split; [vm_compute; reflexivity|].
    split; vm_compute; reflexivity.
  - exists (game_or (vexec replay_game board_session)), (game_or (replay_of (game_or (vexec replay_game board_session)))).
    split; [vm_compute; reflexivity|]. split; [vm_compute; reflexivity|]. split; [vm_compute; reflexivity|].
    split; vm_compute; reflexivity.
  - exists (game_or (vexec replay_game l_session)). split; [vm_compute; reflexivity|]. split; vm_compute; reflexivity.
Qed.
Print Assumptions C58_refuted.

(** A game won with its first click took no time since the opening click; the code reports the time
    since the press (60 ms here). After [reset] the start of the previous game is subtracted instead,
    and if the new game is shorter than that the program crashes. *)
Theorem C59_refuted :
  (exists v, vexec replay_game click_session = Ok v /\
    b_state v = Win /\ map r_useful (b_rec v) = [0; 2]%nat /\ map r_time (b_rec v) = [0; 60] /\
    v_rtime_ms (b_meta v) = 60) /\
  (exists v, (let* v1 := bv_reset replay_done 3 3 16 in let* q := set_board v1 demo_board in Ok (fst q)) = Ok v /\
    b_state v = Ready /\
    vexec v click_session = Panic).
Proof.
  split.
  - exists (game_or (vexec replay_game click_session)). split; [vm_compute; reflexivity|].
    split; [vm_compute; reflexivity|]. split; [vm_compute; reflexivity|]. split; vm_compute; reflexivity.
  - exists (game_or (let* v1 := bv_reset replay_done 3 3 16 in let* q := set_board v1 demo_board in Ok (fst q))).
    split; [vm_compute; reflexivity|]. split; vm_compute; reflexivity.
Qed.
Print Assumptions C59_refuted.
