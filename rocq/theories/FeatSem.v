(** * FeatSem: the answers the analyses get, in terms of the game. *)
From Verif Require Import Base Spec BaseFacts LayMine Metrics MineBoard MineBoardProofs Matrix Solve SolverSpec MatrixProofs PosProofs BoardCache StoreProofs Utils
  PossSpec Possibility MarkWorlds Evf EvfSpec BaseVideo PropsGame PropsShow Features FeatReplay FeatProofs.
Open Scope Z_scope.

(** The answer of a [GameBoard] about the visible board [g]. *)
Definition finds (g : board) (q : gquery) (l : list pos) : Prop :=
  forall n, gsession (gboard_new n) [Gset g; Gask q] = Ok [l].
Lemma mark_forget n n' B B' s : forget B = forget B' -> gb_mark (fresh n B) = Ok s ->
  exists s', gb_mark (fresh n' B') = Ok s' /\ forall q, gpick s' q = gpick s q.
Proof.
  intros Hf E. unfold gb_mark, set_game_board in *. cbn [gb_is_marked gboard_new gb_marked gb_basic_not gb_basic_is gb_enum_is gb_board gb_minenum] in *.
  change (map (map (fun v => if 10 <? v then 10 else v)) B) with (forget B) in E. change (map (map (fun v => if 10 <? v then 10 else v)) B') with (forget B'). rewrite <- Hf.
  apply bind_ok in E as ([[? ?] ?] & -> & E). cbn [bind]. apply bind_ok in E as ([[[? ?] ?] ?] & -> & E). cbn [bind]. apply bind_ok in E as ([[[? ?] ?] ?] & -> & E). cbn [bind].
  apply bind_ok in E as (? & -> & E). cbn [bind]. apply bind_ok in E as (? & E1 & E). rewrite E1. cbn [bind]. apply bind_ok in E as ([? ?] & -> & E). cbn [bind].
  apply bind_ok in E as (? & E2 & E). rewrite E1 in E2. injection E2 as <-. injection E as <-. eexists. split; [reflexivity|]. intros []; reflexivity.
Qed.
Lemma finds_mark n g s q : gb_mark (fresh n g) = Ok s -> finds g q (gpick s q).
Proof.
  intros E n'. destruct (@mark_forget n n' g g s eq_refl E) as (s' & E' & H). cbn [gsession]. unfold gask. rewrite E'. cbn [bind]. rewrite <- H. destruct q; reflexivity.
Qed.
Lemma finds_unique g q l l' : finds g q l -> finds g q l' -> l = l'.
Proof. intros H H'. specialize (H 0%nat). rewrite (H' 0%nat) in H. now injection H. Qed.

(** ** The file *)
Definition mines (f : video) : nat := count (is_mine (v_board f)) (positions (v_height f) (v_width f)).
(** [wins f s], [hits f s q]: the numbers of arrangements of the mines that agree with what [s] shows,
    and of those with a mine at [q] *)
Definition worlds (f : video) (s : mb) : nat := n_worlds (v_height f) (v_width f) (forget (m_gb s)) (mines f).
Definition worlds_hit (f : video) (s : mb) (q : pos) : nat := n_worlds_mine (v_height f) (v_width f) (forget (m_gb s)) (mines f) q.

Section File.
Variables (f : video) (HWF : well_formed f) (raw : list Z) (now : Z) (v : bv) (EA : analyse (of_file f raw now) = Ok v) (Hpix : 0 < v_pix f).
Notation row := (v_height f). Notation column := (v_width f).

Lemma rec_at i r : nth_error (b_rec v) i = Some r -> rec_ok f (b_stream v) i r.
Proof. destruct (recs_ok HWF EA) as (_ & _ & _ & H). apply H. Qed.
Lemma rec_len : length (b_rec v) = length (v_events f).
Proof. destruct (recs_ok HWF EA) as (_ & H & _). exact H. Qed.
Lemma place_at i r e : nth_error (b_rec v) i = Some r -> nth_error (v_events f) i = Some e -> place v r = Ok (cell_at f e).
Proof.
  intros Er Ee. destruct (rec_at Er) as (e' & s & s' & B & H1 & _ & _ & _ & _ & Hx & Hy & _). rewrite Ee in H1. injection H1 as <-.
  destruct (recs_ok HWF EA) as (Hp & _). unfold place, udiv. rewrite Hp, Hx, Hy. destruct (Nat.eqb_spec (Z.to_nat (v_pix f)) 0); [lia|]. reflexivity.
Qed.
Lemma prior_board i r B : nth_error (b_rec v) i = Some r -> nth_error (b_stream v) (r_prior r) = Some (fresh (Z.to_nat (v_mine_num f)) B) ->
  exists k s, game_after f k = Ok s /\ B = m_gb s.
Proof.
  intros Er Es. destruct (recs_ok HWF EA) as (_ & _ & Hall & _). rewrite Forall_forall in Hall. apply nth_error_In in Es. destruct (Hall _ Es) as (k & s & _ & Hk & E).
  unfold set_game_board in E. injection E as E _. eauto.
Qed.
Lemma step_loss s e p s' u : m_state s = Loss -> step s e p = Ok (s', Some u) -> u = 0%nat.
Proof. intros Hs E. unfold step, ret in E. rewrite Hs in E. now injection E as _ <-. Qed.

(** the lists a record gets *)
Lemma list_at i r s u : nth_error (b_rec v) i = Some r -> answered f i s u -> m_state s <> Loss ->
  exists sm, (forall q, pure_list v (r_prior r) q = Ok (gpick sm q)) /\ (forall q, finds (m_gb s) q (gpick sm q)) /\ marked_state row column (m_gb s) sm.
Proof.
  intros Er (e & s' & He & Hs & Est) HL. destruct (rec_at Er) as (e' & s0 & s1 & B & H1 & H2 & _ & _ & _ & _ & _ & _ & _ & HB & Hst).
  rewrite Hs in H2. injection H2 as <-. pose proof (game_in HWF Hs) as G. destruct (prior_board Er HB) as (k & sk & Hk & ->). pose proof (game_in HWF Hk) as Gk.
  assert (Hsat : satisfiable row column (forget (m_gb s))).
  { pose proof (shown_consistent G) as Hcons. destruct G as (HI & R1 & R2 & R3). split; [|split; [destruct HWF; lia|]].
    - apply forget_rect. rewrite <- R1, <- R2. apply (i_rect HI).
    - exists (is_mine (v_board f)). exact Hcons. }
  assert (Hr : rect row column (m_gb s)) by (destruct G as (HI & <- & <- & _); apply (i_rect HI)).
  destruct (gb_mark_ok (Z.to_nat (v_mine_num f)) Hsat Hr) as (sm & Em & Hm).
  destruct (@mark_forget _ (Z.to_nat (v_mine_num f)) _ (m_gb sk) _ (eq_sym (proj1 Hst HL)) Em) as (sk' & Ek & Hpick).
  exists sm. split; [|split; auto].
  - intros q. unfold pure_list, vget. rewrite HB. cbn [bind]. rewrite Ek. cbn [bind]. now rewrite Hpick.
  - intros q. eapply finds_mark; eauto.
Qed.
(** the probability a record gets *)
Lemma poss_at i r s u q : v_mine_num f = Z.of_nat (mines f) -> (1 <= mines f)%nat ->
  nth_error (b_rec v) i = Some r -> answered f i s u -> m_state s <> Loss -> small_marked row column (forget (m_gb s)) -> inb row column q ->
  exists p, pure_poss v (r_prior r) q = Ok p /\ is_prob p (worlds_hit f s q) (worlds f s).
Proof.
  intros HM HM1 Er (e & s' & He & Hs & Est) HL Hsm Hq. destruct (rec_at Er) as (e' & s0 & s1 & B & H1 & H2 & _ & _ & _ & _ & _ & _ & _ & HB & Hst).
  rewrite Hs in H2. injection H2 as <-. destruct (prior_board Er HB) as (k & sk & Hk & ->). pose proof (game_in HWF Hk) as Gk.
  assert (Hr : rect row column (m_gb sk)) by (destruct Gk as (HI & <- & <- & _); apply (i_rect HI)).
  rewrite HM, Nat2Z.id in HB. pose proof (proj1 Hst HL) as EF.
  destruct (@poss_ok row column (m_gb sk) (is_mine (v_board f)) (mines f) Hr) as (sm & P & _ & _ & EP & _ & _ & Hcells).
  - destruct HWF; lia.
  - intros x Hx. eapply shown_pos; eauto.
  - apply shown_consistent; auto.
  - reflexivity.
  - auto.
  - now rewrite EF.
  - destruct q as [a b]. destruct (Hcells a b Hq) as (p & E1 & E2). exists p. split.
    + unfold pure_poss, vget. rewrite HB. cbn [bind]. rewrite EP. cbn [bind fst snd]. exact E1.
    + unfold worlds_hit, worlds. rewrite <- EF. exact E2.
Qed.
Lemma worlds_pos s i : game_after f i = Ok s -> worlds f s <> 0%nat.
Proof. intros H. pose proof (game_in HWF H) as G. unfold worlds, mines. apply world_of. now apply shown_consistent. Qed.
End File.
Lemma at_51_iff p x n : is_prob p x n -> n <> 0%nat -> at_least_51 p = true <-> (51 * n <= 100 * x)%nat.
Proof.
  intros [H1 H2] Hn. specialize (H2 Hn). destruct p as [a b]. unfold at_least_51. cbn [fst snd] in *. rewrite andb_true_iff, !Nat.leb_le. split.
  - intros [_ H]. apply (Nat.mul_le_mono_pos_r _ _ b); nia.
  - intros H. split; [lia|]. apply (Nat.mul_le_mono_pos_r _ _ n); nia.
Qed.
Lemma positive_iff p x n : is_prob p x n -> n <> 0%nat -> positive p = true <-> x <> 0%nat.
Proof.
  intros [H1 H2] Hn. specialize (H2 Hn). destruct p as [a b]. unfold positive. cbn [fst snd] in *. rewrite andb_true_iff, !Nat.leb_le. split.
  - intros [_ H]. nia.
  - intros H. split; [lia|]. nia.
Qed.
Lemma below_iff p x n : is_prob p x n -> n <> 0%nat -> below_one p = true <-> (x < n)%nat.
Proof.
  intros [H1 H2] Hn. specialize (H2 Hn). destruct p as [a b]. unfold below_one. cbn [fst snd] in *. rewrite Nat.ltb_lt. split; intros H; nia.
Qed.
