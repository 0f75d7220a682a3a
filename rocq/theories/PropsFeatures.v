(** * PropsFeatures: what [analyse_for_features] writes into the comments (C67-C73). *)
From Verif Require Import Base Spec BaseFacts LayMine Metrics MineBoard MineBoardProofs Matrix Solve SolverSpec MatrixProofs LinFacts ChunkProofs EnumSolve PosProofs BoardCache SolveProofs EnumProofs TableProofs LayMineProofs EnumBlock StoreProofs Utils GuessSpec PossSums
  PossSpec Possibility PossMain PropsPoss MarkWorlds Evf EvfSpec BaseVideo PropsSetters PropsGame PropsReplay PropsShow Features FeatReplay FeatProofs FeatSem.
Open Scope Z_scope.

(** ** Vocabulary *)
(** Event number [i] of the file is [e]; it finds the game [s] and is answered [u] (2: a cell is opened by
    a left click, 3: by a chord, 1: a flag, 0: nothing). *)
Definition event_at (f : video) (i : nat) (e : vev) (s : mb) (u : nat) : Prop :=
  nth_error (v_events f) i = Some e /\ game_after f i = Ok s /\ exists s', step s (ve_mouse e) (cell_at f e) = Ok (s', Some u).
Definition playable (f : video) : Prop := well_formed f /\ 0 < v_pix f.
(** the mine number of the file is the number of mines on its board, and there is a mine *)
Definition right_mines (f : video) : Prop := v_mine_num f = Z.of_nat (mines f) /\ (1 <= mines f)%nat.
(** no position of the game has more than 55 unknown cells in one connected system *)
Definition small_file (f : video) : Prop := forall i s, game_after f i = Ok s -> small_marked (v_height f) (v_width f) (forget (m_gb s)).
(** The state of the comments after any analyses. *)
Definition analysed (v : bv) (st : fstate) : Prop := exists l, analyse_for_features v (fstart v) l = Ok st.
(** Every event keeps its comments and gets new ones at the end. *)
Definition adds (cm cm' : list (list comment)) (new : nat -> list comment -> Prop) : Prop :=
  length cm' = length cm /\ forall i, (i < length cm)%nat -> exists cs, nth i cm' [] = nth i cm [] ++ cs /\ new i cs.
(** Exactly the events with [P] get one comment, of the kind [Q]. *)
Definition marks_events (P : nat -> Prop) (Q : nat -> comment -> Prop) (cm cm' : list (list comment)) : Prop :=
  adds cm cm' (fun i cs => (P i -> exists c, cs = [c] /\ Q i c) /\ (~ P i -> cs = [])).

Lemma small_enough f : (1 <= v_height f)%nat -> (forall i s, game_after f i = Ok s -> front_le (v_height f) (v_width f) (forget (m_gb s)) 55) -> small_file f.
Proof. intros H Hf i s Hs. apply front_le_small; [lia|]. eapply Hf; eauto. Qed.

Section File.
Variables (f : video) (raw : list Z) (now : Z) (v : bv) (HP : playable f) (EA : analyse (of_file f raw now) = Ok v).
Let HWF : well_formed f := proj1 HP.
Lemma events_len : length (b_rec v) = length (v_events f).
Proof. exact (rec_len HWF EA). Qed.
Lemma event_rec i : (i < length (b_rec v))%nat -> exists r e s u, nth_error (b_rec v) i = Some r /\ vget (b_rec v) i = Ok r /\
  event_at f i e s u /\ answered f i s u /\ r_useful r = u /\ r_mouse r = ve_mouse e /\ r_x r = ve_x e /\ r_y r = ve_y e /\ place v r = Ok (cell_at f e).
Proof.
  intros Hi. destruct (vget_case (b_rec v) i) as [(r & E & E')|[E _]]; [|apply nth_error_None in E; lia].
  destruct (rec_at HWF EA E) as (e & s & s' & B & H1 & H2 & H3 & H4 & H5 & H6 & H7 & _). exists r, e, s, (r_useful r). split; auto. split; auto.
  split; [split; auto; split; auto; exists s'; auto|]. split; [exists e, s'; auto|]. do 4 (split; auto). eapply place_at; eauto. apply HP.
Qed.
Lemma event_unique i e s u e' s' u' : event_at f i e s u -> event_at f i e' s' u' -> e' = e /\ s' = s /\ u' = u.
Proof.
  intros (H1 & H2 & t & H3) (H1' & H2' & t' & H3'). rewrite H1 in H1'. injection H1' as <-. rewrite H2 in H2'. injection H2' as <-. rewrite H3 in H3'. injection H3' as _ <-. auto.
Qed.
Lemma event_inb i e s u : event_at f i e s u -> (1 <= u)%nat -> m_state s <> Loss /\ in_game f s /\
  useful_at (v_height f) (v_width f) (v_board f) (m_gb s) (cell_at f e) u.
Proof.
  intros (H1 & H2 & t & H3) Hu. pose proof (game_in HWF H2) as G. split; [intros X; pose proof (step_loss X H3); lia|]. split; auto.
  destruct G as (HI & <- & <- & <-). eapply step_useful; eauto.
Qed.
(** one pass over the events from number 2 on *)
Lemma pass_spec st new (P : nat -> Prop) (Q : nat -> comment -> Prop) run :
  analysed v st -> (forall gs cm, boards v gs -> length cm = length (b_rec v) -> exists gs', boards v gs' /\
     run (gs, cm) = (let* cm' := notes new (rng 2 (length (b_rec v))) cm in Ok (gs', cm'))) ->
  (forall i, P i -> (2 <= i < length (b_rec v))%nat) ->
  (forall i, (2 <= i < length (b_rec v))%nat -> exists cs, new i = Ok cs /\ (P i -> exists c, cs = [c] /\ Q i c) /\ (~ P i -> cs = [])) ->
  exists st', run st = Ok st' /\ marks_events P Q (snd st) (snd st').
Proof.
  intros (l & El) Hrun HPi Hnew. destruct (analysed_fine El) as [Hg Hc]. destruct st as [gs cm]. cbn [fst snd] in *.
  destruct (Hrun gs cm Hg Hc) as (gs' & Hg' & ->).
  assert (Hch : exists cs, forall i, (2 <= i < length (b_rec v))%nat -> new i = Ok (cs i) /\ (P i -> exists c, cs i = [c] /\ Q i c) /\ (~ P i -> cs i = [])).
  { exists (fun i => match new i with Ok c => c | _ => [] end). intros i Hi. destruct (Hnew i Hi) as (c & E & H). rewrite E. auto. }
  destruct Hch as (cs & Hcs).
  destruct (@notes_ok new cs (rng 2 (length (b_rec v))) cm) as (cm' & E & L & Hn).
  { apply seq_NoDup. } { intros i Hi. apply rng_lt in Hi. split; [lia|]. now apply Hcs. }
  rewrite E. cbn [bind]. eexists. split; [reflexivity|]. cbn [snd]. split; auto. intros i Hi. eexists. split; [apply Hn|].
  destruct (existsb (Nat.eqb i) (rng 2 (length (b_rec v)))) eqn:Ex.
  - apply existsb_exists in Ex as (j & Hj & Ej). apply Nat.eqb_eq in Ej. subst j. apply rng_lt in Hj. now apply Hcs.
  - split; auto. intros HPi'. apply HPi in HPi'. exfalso. apply not_true_iff_false in Ex. apply Ex. apply existsb_exists. exists i. split; [now apply rng_lt|apply Nat.eqb_refl].
Qed.
End File.

(** ** C67 [high_risk_guess] *)
(** Event [i] opened something, at a cell that was a mine in at least 51 % of the arrangements that fit
    what was visible. *)
Definition risky (f : video) (i : nat) : Prop :=
  (2 <= i)%nat /\ exists e s u, event_at f i e s u /\ (2 <= u)%nat /\ (51 * worlds f s <= 100 * worlds_hit f s (cell_at f e))%nat.
Definition risk_comment (f : video) (i : nat) (c : comment) : Prop :=
  exists p e s u, c = Risky p /\ event_at f i e s u /\ is_prob p (worlds_hit f s (cell_at f e)) (worlds f s).

Theorem C67_high_risk_partial : forall f raw now v st,
  playable f -> right_mines f -> small_file f -> analyse (of_file f raw now) = Ok v -> analysed v st ->
  exists st', high_risk_guess v st = Ok st' /\ marks_events (risky f) (risk_comment f) (snd st) (snd st').
Proof.
  intros f raw now v st HP [HM HM1] Hsm EA Hst. pose proof (proj1 HP) as HWF. refine (@pass_spec v st (risk_new v) _ _ _ Hst _ _ _).
  - intros gs cm. apply risk_eq.
  - intros i (Hi & e & s & u & (He & _) & _). split; auto. rewrite (events_len HP EA). apply nth_error_Some. congruence.
  - intros i Hi. destruct (event_rec HP EA (proj2 Hi)) as (r & e & s & u & Er & Er' & Hev & Han & Hu & Hmo & _ & _ & Hpl).
    unfold risk_new. rewrite Er'. cbn [bind]. rewrite Hpl. cbn [bind]. rewrite Hu. destruct (Nat.leb_spec 2 u) as [H2|H2].
    + destruct (event_inb HP Hev ltac:(lia)) as (HL & G & Hinb & _). pose proof Hev as (_ & Hs & _).
      destruct (poss_at HWF EA HM HM1 Er Han HL (Hsm i s Hs) Hinb) as (p & -> & Hp). cbn [bind]. eexists. split; [reflexivity|].
      pose proof (at_51_iff Hp (worlds_pos HWF Hs)) as Hiff. split.
      * intros (_ & e' & s' & u' & Hev' & _ & Hr). destruct (event_unique Hev Hev') as (-> & -> & ->). rewrite (proj2 Hiff Hr). exists (Risky p). split; auto. exists p, e, s, u. auto.
      * intros Hn. destruct (at_least_51 p) eqn:E51; auto. exfalso. apply Hn. split; [lia|]. exists e, s, u. split; auto. split; auto. now apply Hiff.
    + exists []. split; auto. split; auto. intros (_ & e' & s' & u' & Hev' & Hu' & _). destruct (event_unique Hev Hev') as (-> & -> & ->). lia.
Qed.
Print Assumptions C67_high_risk_partial.

(** Only guesses that went well are reported: the reported cell is not a mine, and a click that hits
    a mine is never reported. *)
Theorem C67_only_survived : forall f i, playable f -> risky f i -> exists e, nth_error (v_events f) i = Some e /\
  inb (v_height f) (v_width f) (cell_at f e) /\ cell (v_board f) (cell_at f e) <> -1.
Proof.
  intros f i HP (Hi & e & s & u & Hev & Hu & Hr). destruct (event_inb HP Hev ltac:(lia)) as (HL & G & Hinb & Hcell). exists e. split; [apply Hev|]. split; auto.
  destruct Hcell as [(-> & _)|[(_ & _ & H)|(_ & H0 & H8)]]; [lia|auto|].
  (* a chord: the cell is open *)
  destruct G as (HI & R1 & R2 & R3). rewrite <- R1, <- R2 in Hinb. destruct (good_eq (i_legal HI) Hinb (i_shape HI Hinb) ltac:(lia)) as [_ X]. now rewrite <- R3.
Qed.
Print Assumptions C67_only_survived.

(** ** Small files for the concrete cases: 16 pixels per cell *)
Definition file_of (b : board) (h w : nat) (n : Z) (es : list vev) : video :=
  vw_events (vw_mine_num (vw_height (vw_width (vw_board video_default b) w) h) n) es.
Definition left_at (r c : nat) (t : Z) : list vev := [VEv e_lc t (16 * Z.of_nat c) (16 * Z.of_nat r); VEv e_lr (t + 10) (16 * Z.of_nat c) (16 * Z.of_nat r)].
Definition right_at (r c : nat) (t : Z) : list vev := [VEv e_rc t (16 * Z.of_nat c) (16 * Z.of_nat r); VEv e_rr (t + 10) (16 * Z.of_nat c) (16 * Z.of_nat r)].
(** the comments after the analyses [l] *)
Definition comments_of (f : video) (l : list feature) : R (list (list comment)) :=
  let* v := analyse (of_file f [] 0) in let* st := analyse_for_features v (fstart v) l in Ok (snd st).
Definition b22 : board := [[2; -1]; [-1; 2]].
Lemma b22_legal : legal_board 2 2 b22.
Proof.
  split; [split; [reflexivity|repeat constructor]|]. intros q Hq. apply (in_positions 2 2) in Hq. vm_compute in Hq.
  repeat destruct Hq as [<-|Hq]; try (now left); try (right; reflexivity); destruct Hq.
Qed.
Lemma few_small f : (1 <= v_height f)%nat -> (v_height f * v_width f <= 55)%nat -> small_file f.
Proof.
  intros H1 H2. apply small_enough; auto. intros i s _ l Nd Hl. etransitivity; [|exact H2]. rewrite <- (length_positions (v_height f) (v_width f)).
  apply NoDup_incl_length; auto. intros q Hq. rewrite Forall_forall in Hl. apply in_positions. apply (Hl q Hq).
Qed.
Example C67_case : let f := file_of b22 2 2 2 (left_at 0 0 0 ++ left_at 1 1 100) in
  playable f /\ right_mines f /\ small_file f /\ risky f 3 /\ comments_of f [High_risk_guess] = Ok [[]; []; []; [Risky (2, 3)%nat]].
Proof.
  cbv zeta. split; [split; [split; [apply b22_legal|cbn; lia]|reflexivity]|]. split; [split; [reflexivity|vm_compute; lia]|]. split; [apply few_small; vm_compute; lia|].
  split; [|vm_compute; reflexivity]. split; [lia|]. eexists _, _, 2%nat. split; [split; [reflexivity|split; [vm_compute; reflexivity|eexists; vm_compute; reflexivity]]|]. split; [lia|]. vm_compute. lia.
Qed.
(** A guess that is a mine in two of three arrangements and explodes: no analysis that adds comments mentions it. *)
Theorem C67_refuted_fatal_guess : let f := file_of b22 2 2 2 (left_at 0 0 0 ++ left_at 0 1 100) in
  playable f /\ right_mines f /\ small_file f /\
  (exists e s, event_at f 3 e s 0 /\ ve_mouse e = e_lr /\ (51 * worlds f s <= 100 * worlds_hit f s (cell_at f e))%nat /\ m_state s = Playing /\
     cell (v_board f) (cell_at f e) = -1 /\ exists s', game_after f 4 = Ok s' /\ m_state s' = Loss) /\
  comments_of f [High_risk_guess] = Ok [[]; []; []; []].
Proof.
  cbv zeta. split; [split; [split; [apply b22_legal|cbn; lia]|reflexivity]|]. split; [split; [reflexivity|vm_compute; lia]|]. split; [apply few_small; vm_compute; lia|].
  split; [|vm_compute; reflexivity]. eexists _, _. split; [split; [reflexivity|split; [vm_compute; reflexivity|eexists; vm_compute; reflexivity]]|].
  split; [reflexivity|]. split; [vm_compute; lia|]. split; [reflexivity|]. split; [reflexivity|]. eexists. split; [vm_compute; reflexivity|reflexivity].
Qed.

(** ** C68 [jump_judge] *)
(** Event [i] is a left release that opened a cell which the listed safe cells of the two elementary rules
    do not contain, but those of the enumeration do. *)
Definition hard_left (f : video) (i : nat) : Prop :=
  (2 <= i)%nat /\ exists e s u l1 l2, event_at f i e s u /\ (2 <= u)%nat /\ ve_mouse e = e_lr /\
    finds (m_gb s) Gbasic_not l1 /\ finds (m_gb s) Genum_not l2 /\ ~ In (cell_at f e) l1 /\ In (cell_at f e) l2.

Lemma event_eqb_iff a b : event_eqb a b = true <-> a = b.
Proof. destruct a, b; split; intros H; try reflexivity; discriminate H. Qed.

Theorem C68_jump_judge : forall f raw now v st,
  playable f -> analyse (of_file f raw now) = Ok v -> analysed v st ->
  exists st', jump_judge v st = Ok st' /\ marks_events (hard_left f) (fun _ c => c = HardLeft) (snd st) (snd st').
Proof.
  intros f raw now v st HP EA Hst. pose proof (proj1 HP) as HWF. refine (@pass_spec v st (jump_new v) _ _ _ Hst _ _ _).
  - intros gs cm. apply jump_eq.
  - intros i (Hi & e & s & u & l1 & l2 & (He & _) & _). split; auto. rewrite (events_len HP EA). apply nth_error_Some. congruence.
  - intros i Hi. destruct (event_rec HP EA (proj2 Hi)) as (r & e & s & u & Er & Er' & Hev & Han & Hu & Hmo & _ & _ & Hpl).
    assert (Hno : (u < 2)%nat \/ ve_mouse e <> e_lr -> ~ hard_left f i).
    { intros H (_ & e' & s' & u' & l1 & l2 & Hev' & Hu' & Hm' & _). destruct (event_unique Hev Hev') as (-> & -> & ->). destruct H; [lia|congruence]. }
    unfold jump_new. rewrite Er'. cbn [bind]. rewrite Hpl. cbn [bind]. rewrite Hu, Hmo.
    assert (K : (1 <= u)%nat -> exists sm, (forall q, pure_list v (r_prior r) q = Ok (gpick sm q)) /\ (forall q, finds (m_gb s) q (gpick sm q)) /\ marked_state (v_height f) (v_width f) (m_gb s) sm).
    { intros H1. destruct (event_inb HP Hev H1) as (HL & _). eapply list_at; eauto. }
    destruct ((2 <=? u)%nat && event_eqb (ve_mouse e) e_lr) eqn:C1.
    + apply andb_true_iff in C1 as [C1 C2]. apply Nat.leb_le in C1. apply event_eqb_iff in C2. destruct (K ltac:(lia)) as (sm & HL & HF & HM).
      unfold pure_only. rewrite !HL. cbn [bind]. destruct (mem_pos_spec (cell_at f e) (gpick sm Gbasic_not)) as [M1|M1].
      * eexists. split; [reflexivity|]. split; auto. intros (_ & e' & s' & u' & l1 & l2 & Hev' & _ & _ & F1 & _ & N1 & _). destruct (event_unique Hev Hev') as (-> & -> & ->).
        rewrite (finds_unique F1 (HF _)) in N1. contradiction.
      * cbn [bind]. destruct (mem_pos_spec (cell_at f e) (gpick sm Genum_not)) as [M2|M2]; (eexists; split; [reflexivity|]; split).
        -- eauto. -- intros Hn. exfalso. apply Hn. split; [lia|]. exists e, s, u, (gpick sm Gbasic_not), (gpick sm Genum_not). auto 10.
        -- intros (_ & e' & s' & u' & l1 & l2 & Hev' & _ & _ & _ & F2 & _ & N2). destruct (event_unique Hev Hev') as (-> & -> & ->).
           rewrite (finds_unique F2 (HF _)) in N2. contradiction.
        -- auto.
    + assert (Hn : ~ hard_left f i). { apply Hno. apply andb_false_iff in C1 as [C1|C1]; [apply Nat.leb_gt in C1; auto|]. right. intros E. rewrite E in C1. discriminate C1. }
      destruct ((u =? 1)%nat && event_eqb (ve_mouse e) e_rc) eqn:C2; [|exists []; split; auto; split; auto; tauto].
      apply andb_true_iff in C2 as [C2 _]. apply Nat.eqb_eq in C2. destruct (K ltac:(lia)) as (sm & HL & HF & HM). exists []. split; [|split; auto; tauto].
      unfold pure_only. rewrite !HL. cbn [bind gpick]. destruct (mem_pos _ _); auto. cbn [bind]. now rewrite (ms_eis HM).
Qed.
Print Assumptions C68_jump_judge.

(** The comment is justified: the opened cell was covered, touched a number, and is safe in every
    arrangement that explains what was visible. *)
Theorem C68_sound : forall f i, playable f -> hard_left f i -> exists e s, event_at f i e s 2 /\
  front_cell (v_height f) (v_width f) (forget (m_gb s)) (cell_at f e) /\ determined (v_height f) (v_width f) (forget (m_gb s)) (cell_at f e) false.
Proof.
  intros f i HP (Hi & e & s & u & l1 & l2 & Hev & Hu & _ & _ & F2 & _ & Hin). pose proof Hev as (He & Hs & s' & Hst).
  destruct (event_inb HP Hev ltac:(lia)) as (HL & G & Hinb & Hcell). pose proof (shown_consistent G) as Hc.
  assert (Hr : rect (v_height f) (v_width f) (m_gb s)) by (destruct G as (HI & <- & <- & _); apply (i_rect HI)).
  destruct (@gb_mark_ok (v_height f) (v_width f) (m_gb s) 0%nat) as (sm & Em & HM); auto.
  { split; [now apply forget_rect|]. split; [destruct HP as [[_ ?] _]; lia|]. eauto. }
  rewrite (finds_unique F2 (@finds_mark 0%nat _ _ Genum_not Em)) in Hin. cbn [gpick] in Hin. destruct (ms_enot HM Hin) as [Hfc Hd].
  exists e, s. split; [|auto]. destruct Hcell as [(-> & _)|[(-> & _)|(-> & H0 & H8)]]; [lia|exact Hev|].
  exfalso. destruct Hfc as (_ & H10 & _). rewrite (forget_cell Hr Hinb) in H10. destruct (Z.ltb_spec 10 (cell (m_gb s) (cell_at f e))); lia.
Qed.
Print Assumptions C68_sound.

Lemma deductions_small row column g k bl bd N I : satisfiable row column g -> deductions g bl bd N I -> front_le row column g k -> Forall (fun B => length (vars B) <= k)%nat bl.
Proof.
  intros (Hr & Hrow & m0 & Hm0) D Hle. pose proof (deductions_inv Hr Hrow Hm0 D) as IH. apply Forall_forall. intros B HB. apply Hle.
  - pose proof (di_good IH) as G. rewrite Forall_forall in G. apply (gd_nodup (proj1 (G B HB))).
  - apply Forall_forall. intros q Hq. apply (di_cells IH). rewrite !in_app_iff. right. right. apply EnumSolve.in_vars. eauto.
Qed.
(** And it is given to every such opening that the elementary rules do not explain, as long as no
    connected system has more than 55 unknown cells. *)
Theorem C68_complete : forall f i e s l1, playable f -> (2 <= i)%nat -> event_at f i e s 2 -> ve_mouse e = e_lr ->
  finds (m_gb s) Gbasic_not l1 -> ~ In (cell_at f e) l1 -> front_le (v_height f) (v_width f) (forget (m_gb s)) ENUM_LIMIT ->
  front_cell (v_height f) (v_width f) (forget (m_gb s)) (cell_at f e) -> determined (v_height f) (v_width f) (forget (m_gb s)) (cell_at f e) false ->
  hard_left f i.
Proof.
  intros f i e s l1 HP Hi Hev Hm F1 N1 Hle Hfc Hd. split; auto.
  destruct (event_inb HP Hev ltac:(lia)) as (HL & G & Hinb & Hcell). pose proof (shown_consistent G) as Hc.
  assert (Hr : rect (v_height f) (v_width f) (m_gb s)) by (destruct G as (HI & <- & <- & _); apply (i_rect HI)).
  assert (Hsat : satisfiable (v_height f) (v_width f) (forget (m_gb s))). { split; [now apply forget_rect|]. split; [destruct HP as [[_ ?] _]; lia|]. eauto. }
  destruct (@gb_mark_ok (v_height f) (v_width f) (m_gb s) 0%nat Hsat Hr) as (sm & Em & HM).
  pose proof (@finds_mark 0%nat _ _ Gbasic_not Em) as F1'. rewrite (finds_unique F1 F1') in N1. cbn [gpick] in N1.
  exists e, s, 2%nat, (gb_basic_not sm), (gb_enum_not sm). split; auto. split; auto. split; auto. split; [exact F1'|]. split; [exact (@finds_mark 0%nat _ _ Genum_not Em)|]. split; auto.
  assert (Hall : In (cell_at f e) (gb_basic_not sm ++ gb_enum_not sm)); [|apply in_app_or in Hall as [?|?]; [contradiction|auto]].
  apply (ms_complete HM); auto. intros bl bd N I D. exact (deductions_small Hsat D Hle).
Qed.
Print Assumptions C68_complete.

(** A row of three mines under 1 . 3 . 1: the outer cells are safe by enumeration only. *)
Definition b25 : board := [[1; 2; 3; 2; 1]; [1; -1; -1; -1; 1]].
Lemma b25_legal : legal_board 2 5 b25.
Proof.
  split; [split; [reflexivity|repeat constructor]|]. intros q Hq. apply (in_positions 2 5) in Hq. vm_compute in Hq.
  repeat destruct Hq as [<-|Hq]; try (now left); try (right; reflexivity); destruct Hq.
Qed.
Definition jump_file : video := file_of b25 2 5 3 (left_at 0 0 0 ++ left_at 0 2 100 ++ left_at 0 4 200 ++ right_at 1 2 300 ++ left_at 1 0 400).
Lemma jump_playable : playable jump_file.
Proof. split; [split; [apply b25_legal|cbn; lia]|reflexivity]. Qed.
Lemma jump_finds s : game_after jump_file 9 = Ok s -> finds (m_gb s) Gbasic_not [] /\ finds (m_gb s) Genum_not [(1, 4); (1, 0)]%nat.
Proof. intros E. vm_compute in E. injection E as <-. split; intros n; reflexivity. Qed.
Example C68_case : hard_left jump_file 9 /\ comments_of jump_file [Jump_judge] = Ok [[]; []; []; []; []; []; []; []; []; [HardLeft]].
Proof.
  split; [|vm_compute; reflexivity]. split; [lia|].
  assert (E : exists s, game_after jump_file 9 = Ok s) by (eexists; vm_compute; reflexivity). destruct E as (s & E). destruct (jump_finds E) as [F1 F2].
  eexists _, s, 2%nat, [], [(1, 4); (1, 0)]%nat. split; [split; [reflexivity|split; [exact E|]]|].
  - vm_compute in E. injection E as <-. eexists. vm_compute. reflexivity.
  - split; [lia|]. split; [reflexivity|]. split; [exact F1|]. split; [exact F2|]. split; [intros []|right; left; reflexivity].
Qed.
(** deciding [determined] by listing the mine sets *)
Lemma det_check row column g p b : inb row column p ->
  forallb (fun s => negb (PossSpec.consistentb row column g (with_flags g s)) || Bool.eqb (with_flags g s p) b) (subs (covered_cells row column g)) = true ->
  determined row column g p b.
Proof.
  intros Hp H m Hm. rewrite forallb_forall in H. set (s := filter m (covered_cells row column g)).
  assert (E : forall q, inb row column q -> with_flags g s q = m q).
  { intros q Hq. destruct (Hm q Hq) as (E1 & E2 & _). unfold with_flags, mines_at, flaggedb. destruct (Z.eqb_spec (cell g q) 11) as [X|X]; cbn [orb]; [now rewrite E1|].
    destruct (Z.eq_dec (cell g q) 10) as [Y|Y].
    - apply eq_true_iff_eq. rewrite mem_pos_true. unfold s. rewrite filter_In, in_covered. tauto.
    - rewrite (E2 Y X). apply mem_false. unfold s. rewrite filter_In, in_covered. tauto. }
  specialize (H s (filter_in_subs m _)). rewrite (E p Hp) in H. apply orb_true_iff in H as [H|H]; [|now apply Bool.eqb_prop in H].
  exfalso. apply negb_true_iff in H. apply not_true_iff_false in H. apply H. apply consistentb_iff. intros q Hq. destruct (Hm q Hq) as (E1 & E2 & E3).
  rewrite (E q Hq). split; auto. split; auto. intros Hn. rewrite (E3 Hn). f_equal. apply adj_count_ext. intros x Hx. symmetry. apply (E x Hx).
Qed.
(** Flags are never called hard, although the code has the comment: event 6 flags a cell that is a mine in every
    explanation, and that the elementary rules do not find. *)
Theorem C68_refuted_hard_flag : playable jump_file /\
  (exists e s, event_at jump_file 6 e s 1 /\ ve_mouse e = e_rc /\ finds (m_gb s) Gbasic_is [] /\
     determined 2 5 (forget (m_gb s)) (cell_at jump_file e) true) /\
  comments_of jump_file [Jump_judge] = Ok [[]; []; []; []; []; []; []; []; []; [HardLeft]].
Proof.
  split; [apply jump_playable|]. split; [|vm_compute; reflexivity].
  eexists _, _. split; [split; [reflexivity|split; [vm_compute; reflexivity|eexists; vm_compute; reflexivity]]|]. split; [reflexivity|]. split; [intros n; reflexivity|].
  intros m Hm. change (m (1, 2)%nat = true).
  revert m Hm. apply det_check; [vm_compute; lia|]. vm_compute. reflexivity.
Qed.

(** ** C69 [needless_guess] *)
(** Event [i] is a left release that opened a cell which is a mine in some arrangement. *)
Definition left_guess (f : video) (i : nat) : Prop :=
  (2 <= i)%nat /\ exists e s u, event_at f i e s u /\ (2 <= u)%nat /\ ve_mouse e = e_lr /\ worlds_hit f s (cell_at f e) <> 0%nat.
Lemma determined_no_hit row column g M q : determined row column g q false -> n_worlds_mine row column g M q = 0%nat.
Proof.
  intros Hd. unfold n_worlds_mine, count. apply length_zero_iff_nil. destruct (filter _ _) as [|s l] eqn:E; auto.
  assert (Hin : In s (s :: l)) by now left. rewrite <- E in Hin. apply filter_In in Hin as [_ Hin]. apply andb_true_iff in Hin as [H1 H2].
  unfold worldb in H1. apply andb_true_iff in H1 as [H1 _]. apply (consistentb_iff row column g) in H1. apply Hd in H1. congruence.
Qed.
Theorem C69_needless_partial : forall f raw now v st,
  playable f -> right_mines f -> small_file f -> analyse (of_file f raw now) = Ok v -> analysed v st ->
  exists st', needless_guess v st = Ok st' /\ marks_events (left_guess f) (fun _ c => c = Needless) (snd st) (snd st').
Proof.
  intros f raw now v st HP [HM HM1] Hsm EA Hst. pose proof (proj1 HP) as HWF. refine (@pass_spec v st (needless_new v) _ _ _ Hst _ _ _).
  - intros gs cm. apply needless_eq.
  - intros i (Hi & e & s & u & (He & _) & _). split; auto. rewrite (events_len HP EA). apply nth_error_Some. congruence.
  - intros i Hi. destruct (event_rec HP EA (proj2 Hi)) as (r & e & s & u & Er & Er' & Hev & Han & Hu & Hmo & _ & _ & Hpl).
    unfold needless_new. rewrite Er'. cbn [bind]. rewrite Hu, Hmo.
    destruct ((2 <=? u)%nat && event_eqb (ve_mouse e) e_lr) eqn:C1.
    + apply andb_true_iff in C1 as [C1 C2]. apply Nat.leb_le in C1. apply event_eqb_iff in C2. rewrite Hpl. cbn [bind].
      destruct (event_inb HP Hev ltac:(lia)) as (HL & G & Hinb & _). pose proof Hev as (_ & Hs & _).
      destruct (poss_at HWF EA HM HM1 Er Han HL (Hsm i s Hs) Hinb) as (p & -> & Hp). cbn [bind].
      pose proof (positive_iff Hp (worlds_pos HWF Hs)) as Hiff.
      destruct (list_at HWF EA Er Han HL) as (sm & HLi & HF & HMs). rewrite !HLi. cbn [bind gpick].
      destruct (positive p).
      * assert (Hhit : worlds_hit f s (cell_at f e) <> 0%nat) by now apply Hiff.
        destruct (mem_pos_spec (cell_at f e) (gb_basic_not sm)) as [M1|M1].
        { exfalso. apply Hhit. apply determined_no_hit. now apply (ms_bnot HMs). }
        destruct (mem_pos_spec (cell_at f e) (gb_enum_not sm)) as [M2|M2].
        { exfalso. apply Hhit. apply determined_no_hit. now apply (ms_enot HMs). }
        eexists. split; [reflexivity|]. split; eauto. intros Hn. exfalso. apply Hn. split; [lia|]. exists e, s, u. auto.
      * eexists. split; [reflexivity|]. split; auto. intros (_ & e' & s' & u' & Hev' & _ & _ & Hh). destruct (event_unique Hev Hev') as (-> & -> & ->).
        apply Hiff in Hh. discriminate Hh.
    + eexists. split; [reflexivity|]. split; auto. intros (_ & e' & s' & u' & Hev' & Hu' & Hm' & _). destruct (event_unique Hev Hev') as (-> & -> & ->).
      rewrite Hm' in C1. cbn [event_eqb] in C1. rewrite andb_true_r in C1. apply Nat.leb_gt in C1. lia.
Qed.
Print Assumptions C69_needless_partial.
(** The comment says "guessed although a cell could be deduced". It is also given to a guess in a position in which no
    covered cell is safe in every arrangement. *)
Theorem C69_refuted_forced_guess : let f := file_of b22 2 2 2 (left_at 0 0 0 ++ left_at 1 1 100) in
  playable f /\ right_mines f /\ small_file f /\
  (exists e s, event_at f 3 e s 2 /\ forall q, inb 2 2 q -> cell (m_gb s) q = 10 ->
     worlds_hit f s q <> 0%nat /\ ~ determined 2 2 (forget (m_gb s)) q false) /\
  comments_of f [Needless_guess] = Ok [[]; []; []; [Needless]].
Proof.
  cbv zeta. split; [split; [split; [apply b22_legal|cbn; lia]|reflexivity]|]. split; [split; [reflexivity|vm_compute; lia]|]. split; [apply few_small; vm_compute; lia|].
  split; [|vm_compute; reflexivity]. eexists _, _. split; [split; [reflexivity|split; [vm_compute; reflexivity|eexists; vm_compute; reflexivity]]|].
  intros q Hq Hc. match goal with |- ?X <> _ /\ _ => assert (Hw : X <> 0%nat) end.
  { apply (in_positions 2 2) in Hq. vm_compute in Hq. repeat destruct Hq as [<-|Hq]; try (vm_compute in Hc; discriminate Hc); try (vm_compute; lia); destruct Hq. }
  split; auto. intros Hd. apply Hw. now apply determined_no_hit.
Qed.
