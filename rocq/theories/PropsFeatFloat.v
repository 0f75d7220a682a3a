(** * PropsFeatFloat: the analyses that ask for probabilities (C67, C69, C71) with f64 arithmetic throughout. *)
From Coq Require Import ZArith Reals Lia Lra Bool List Sorted.
From Flocq Require Import Core IEEE754.BinarySingleNaN IEEE754.Binary IEEE754.Bits.
From Verif Require Import Base Spec BaseFacts LayMine Metrics MineBoard MineBoardProofs Matrix Solve SolverSpec MatrixProofs PosProofs BoardCache SolveProofs EnumProofs StoreProofs Utils PossSpec PossSums Possibility
  PossMain PropsPoss PossBoard MarkWorlds Evf EvfSpec BaseVideo PropsGame PropsReplay PropsShow FloatTime FloatQuot FloatTrace BigNum FloatNear PossFloat PropsPossFloat OpenFloat PropsOpenFloat
  Features FeatReplay FeatProofs FeatSem PropsFeatures PropsTraces FeatFloat FeatFloatProofs.
Import ListNotations.
Open Scope Z_scope.
Notation real := Rdefinitions.R.
Local Notation val := (B2R 53 1024).
#[local] Opaque Nat.pow.

(** ** Vocabulary *)
(** [h] is [g] with some covered cells marked as mines or as safe *)
Definition marking (row column : nat) (g h : board) : Prop :=
  rect row column h /\ forall q, inb row column q -> cell h q = cell g q \/ cell g q = 10 /\ (cell h q = 11 \/ cell h q = 12).
(** No position of the game has more than 800 covered cells, or more than [N] ways to distribute mine numbers over
    its connected systems, or a system of more than 55 unknown cells. *)
Definition float_file (f : video) (N : nat) : Prop := small_file f /\ (N <= 2 ^ 38)%nat /\ Z.of_nat (mines f) < 2 ^ 53 /\
  forall i s, game_after f i = Ok s -> (length (covered_cells (v_height f) (v_width f) (forget (m_gb s))) <= 800)%nat /\
    forall h, marking (v_height f) (v_width f) (forget (m_gb s)) h -> few_choices h N.
Definition analysed_f (v : bv) (st : fstate_f) : Prop := exists l, analyse_for_features_f v (fstart_f v) l = Ok st.
(** Every event keeps its comments and gets new ones at the end; exactly the events with [P] get one, of the kind [Q]. *)
Definition marks_events_f (P : nat -> Prop) (Q : nat -> comment_f -> Prop) (cm cm' : list (list comment_f)) : Prop :=
  length cm' = length cm /\ forall i, (i < length cm)%nat -> exists cs, nth i cm' [] = nth i cm [] ++ cs /\
    (P i -> exists c, cs = [c] /\ Q i c) /\ (~ P i -> cs = []).
(** the probability of a mine: the share of the arrangements that fit what the game [s] shows *)
Definition risk (f : video) (s : mb) (q : pos) : real := (INR (worlds_hit f s q) / INR (worlds f s))%R.

(** ** The stored probabilities *)
Lemma marking_fewer row column g h : marking row column g h -> (length (covered_cells row column h) <= length (covered_cells row column g))%nat.
Proof.
  intros [_ Hh]. apply NoDup_incl_length; [apply NoDup_filter, NoDup_positions|].
  unfold covered_cells. intros q Hq. apply filter_In in Hq as [A1 A2]. apply filter_In. split; auto. apply in_positions in A1. unfold coveredb in *. apply Z.eqb_eq in A2.
  destruct (Hh q A1) as [E|(E & _)]; apply Z.eqb_eq; congruence.
Qed.
(** [x] is within a relative error [tol N] of the probability [a / n] *)
Definition near_risk (N : nat) (x : binary64) (p : real) : Prop := is_finite 53 1024 x = true /\ (Rabs (val x - p) <= p * tol N)%R.
Lemma zero_ok : val f_zero = 0%R /\ is_finite 53 1024 f_zero = true.
Proof. split; reflexivity. Qed.
Lemma count_le_INR row column g M q : n_worlds row column g M <> 0%nat -> (0 <= INR (n_worlds_mine row column g M q) / INR (n_worlds row column g M) <= 1)%R.
Proof.
  intros H. assert (0 < INR (n_worlds row column g M))%R by (apply lt_0_INR; lia).
  assert (L : (n_worlds_mine row column g M q <= n_worlds row column g M)%nat).
  { unfold n_worlds_mine, n_worlds. rewrite !count_b1. apply TableProofs.sumn_le. intros s _. destruct (worldb _ _ _ _ _), (with_flags g s q); cbn; lia. }
  apply le_INR in L. assert (0 <= INR (n_worlds_mine row column g M q))%R by apply pos_INR. split.
  - unfold Rdiv. apply Rmult_le_pos; auto. left. now apply Rinv_0_lt_compat.
  - apply Rmult_le_reg_r with (INR (n_worlds row column g M)); auto. unfold Rdiv. rewrite Rmult_assoc, Rinv_l by lra. lra.
Qed.
Theorem poss_f_ok row column g (m : placement) M N : rect row column g -> (0 < row)%nat -> (forall q, inb row column q -> 0 <= cell g q) ->
  consistent row column (forget g) m -> count m (positions row column) = M -> (1 <= M)%nat -> Z.of_nat M < 2 ^ 53 -> small_marked row column (forget g) ->
  (N <= 2 ^ 38)%nat -> (length (covered_cells row column (forget g)) <= 800)%nat -> (forall h, marking row column (forget g) h -> few_choices h N) ->
  exists s P, gb_mark (set_game_board (gboard_new M) g) = Ok s /\
    get_poss_f (PBoard_f (set_game_board (gboard_new M) g) None) = Ok (P, PBoard_f s (Some P)) /\
    forall i j, inb row column (i, j) -> exists x, get P i j = Ok x /\
      near_risk N x (INR (n_worlds_mine row column (forget g) M (i, j)) / INR (n_worlds row column (forget g) M)).
Proof.
  intros Hr H0 Hpos Hm HM H1 H53 Hsmall HN Hc Hfew. assert (Hsat : satisfiable row column (forget g)) by (split; [now apply forget_rect|]; split; [auto|]; now exists m).
  destruct (gb_mark_ok M Hsat Hr) as (s & Es & Hms). destruct (gb_mark_marks Hsat Hr Es) as [En Hw].
  assert (Hcons : forall m, consistent row column (forget g) m <-> consistent row column (gb_marked s) m).
  { apply well_marked_consistent; auto. intros q Hq. now apply (forget_le Hr). }
  pose proof Hw as [Hrm Hcells].
  assert (Hmk : marking row column (forget g) (gb_marked s)).
  { split; auto. intros q Hq. destruct (Hcells q Hq) as [->|(E & [[-> _]|[-> _]])]; auto. }
  assert (Hsat' : satisfiable row column (gb_marked s)) by (split; auto; split; auto; exists m; now apply Hcons).
  assert (Hpr : proper row column (gb_marked s)).
  { intros q Hq. destruct (Hcells q Hq) as [->|(_ & [[-> _]|[-> _]])]; try lia. rewrite (forget_cell Hr) by auto. specialize (Hpos q Hq). destruct (Z.ltb_spec 10 (cell g q)); lia. }
  assert (Hsb : small_blocks (gb_marked s)) by (apply Hsmall; apply Hmk).
  assert (Hn : n_worlds row column (gb_marked s) M <> 0%nat) by (rewrite <- HM; apply world_of; now apply Hcons).
  destruct (@C33_onboard row column (gb_marked s) M N M Hsat' Hpr Hsb (Nat.le_trans _ _ _ (marking_fewer Hmk) Hc) (Hfew _ Hmk) HN H1 H53 (le_n M) Hn) as (P & range & EP & HrP & HP).
  exists s, P. split; auto. split.
  - unfold get_poss_f. cbn [pb_poss_f pb_g_f]. rewrite Es. cbn [bind]. rewrite En, EP. reflexivity.
  - intros i j Hq. destruct (HP i j Hq) as (x & E & X11 & X10 & Xo). exists x. split; auto.
    rewrite (same_worlds M Hcons), (same_worlds_mine M Hq Hcons), (@mine_count row column (gb_marked s) M (i, j) Hq).
    set (W := n_worlds row column (gb_marked s) M) in *. assert (RW : (0 < INR W)%R) by (apply lt_0_INR; lia).
    destruct (tol_range HN) as [T1 _]. assert (U : (0 < u52)%R) by apply bpow_gt_0.
    destruct (Z.eqb_spec (cell (gb_marked s) (i, j)) 11) as [E11|N11].
    + rewrite (X11 E11). destruct one_ok as [V F]. split; auto. rewrite V. replace (INR W / INR W)%R with 1%R by (field; lra). replace (1 - 1)%R with 0%R by ring. rewrite Rabs_R0. lra.
    + destruct (Z.eqb_spec (cell (gb_marked s) (i, j)) 10) as [E10|N10].
      * destruct (X10 E10) as [H _]. destruct (H Hn) as [F V]. split; auto.
      * rewrite (Xo N11 N10). destruct zero_ok as [V F]. split; auto. rewrite V. change (INR 0) with 0%R. replace (0 / INR W)%R with 0%R by (field; lra). replace (0 - 0)%R with 0%R by ring. rewrite Rabs_R0. lra.
Qed.

(** ** Comparisons *)
Lemma f051 : is_finite 53 1024 f_051 = true /\ (Rabs (val f_051 - 51 / 100) <= u52)%R.
Proof.
  split; [vm_compute; reflexivity|]. assert (E : B2SF 53 1024 f_051 = SpecFloat.S754_finite false 4593671619917906 (-53)) by (vm_compute; reflexivity).
  destruct f_051 as [| | |s m e He]; try discriminate E. injection E as -> -> ->. unfold B2R, F2R. cbn [Fnum Fexp cond_Zopp]. unfold u52. simpl. apply Rabs_le. lra.
Qed.
Lemma risk_cmp N x p : (N <= 2 ^ 38)%nat -> (0 <= p <= 1)%R -> near_risk N x p ->
  (at_least_51_f x = true -> (51 / 100 - tol N <= p)%R) /\ (at_least_51_f x = false -> (p < 51 / 100 + tol N)%R).
Proof.
  intros HN Hp [Fx Ex]. destruct (tol_range HN) as [T1 T2]. assert (U : (0 < u52)%R) by apply bpow_gt_0. set (t := tol N) in *.
  destruct f051 as [F5 E5]. unfold at_least_51_f. pose proof (ge_finite Fx F5) as G. apply Rabs_le_inv in Ex, E5. split; intros H.
  - apply G in H. nra.
  - destruct (Rle_or_lt (val f_051) (val x)) as [L|L]; [apply G in L; congruence|]. nra.
Qed.
Lemma risk_pos N x p : (N <= 2 ^ 38)%nat -> (0 <= p <= 1)%R -> near_risk N x p -> positive_f x = true <-> (0 < p)%R.
Proof.
  intros HN Hp [Fx Ex]. destruct (tol_range HN) as [T1 T2]. set (t := tol N) in *. destruct zero_ok as [V F]. unfold positive_f. rewrite (lt_finite F Fx), V. apply Rabs_le_inv in Ex. split; intros H; nra.
Qed.
Lemma risk_below N x p : (N <= 2 ^ 38)%nat -> (0 <= p <= 1)%R -> near_risk N x p -> (p + tol N < 1)%R -> below_one_f x = true.
Proof.
  intros HN Hp [Fx Ex] H. destruct (tol_range HN) as [T1 T2]. set (t := tol N) in *. destruct one_ok as [V F]. unfold below_one_f. apply (lt_finite Fx F). rewrite V. apply Rabs_le_inv in Ex. nra.
Qed.
(** [1.0 - p] *)
Lemma chance_ok N x p : (N <= 2 ^ 38)%nat -> (0 <= p <= 1)%R -> near_risk N x p ->
  is_finite 53 1024 (fsub f_one x) = true /\ (Rabs (val (fsub f_one x) - (1 - p)) <= tol N + u52)%R.
Proof.
  intros HN Hp [Fx Ex]. destruct (tol_range HN) as [T1 T2]. set (t := tol N) in *. destruct one_ok as [V F]. apply Rabs_le_inv in Ex.
  destruct (@sub_abs f_one x F Fx) as [Fd Ed]; [rewrite V; apply Rabs_le; nra|]. split; auto. rewrite V in Ed. apply Rabs_le_inv in Ed. apply Rabs_le. nra.
Qed.

(** ** The answers the analyses get *)
Lemma risk_range f s i q : well_formed f -> game_after f i = Ok s -> (0 <= risk f s q <= 1)%R.
Proof. intros HWF Hs. apply count_le_INR. exact (worlds_pos HWF Hs). Qed.
Lemma poss_at_f f raw now v i r s u q N : playable f -> analyse (of_file f raw now) = Ok v -> right_mines f -> float_file f N ->
  nth_error (b_rec v) i = Some r -> answered f i s u -> m_state s <> Loss -> inb (v_height f) (v_width f) q ->
  exists x, pure_poss_f v (r_prior r) q = Ok x /\ near_risk N x (risk f s q).
Proof.
  intros HP EA [HM HM1] (Hsm & HN & H53 & Hff) Er (e & s' & He & Hs & Est) HL Hq. pose proof (proj1 HP) as HWF.
  destruct (rec_at HWF EA Er) as (e' & s0 & s1 & B & H1 & H2 & _ & _ & _ & _ & _ & _ & _ & HB & Hst).
  rewrite Hs in H2. injection H2 as <-. destruct (prior_board HWF EA Er HB) as (k & sk & Hk & ->). pose proof (game_in HWF Hk) as Gk.
  assert (Hr : rect (v_height f) (v_width f) (m_gb sk)) by (destruct Gk as (HI & <- & <- & _); apply (i_rect HI)).
  rewrite HM, Nat2Z.id in HB. pose proof (proj1 Hst HL) as EF. destruct (Hff i s Hs) as [Hc Hfew].
  destruct (@poss_f_ok (v_height f) (v_width f) (m_gb sk) (is_mine (v_board f)) (mines f) N Hr) as (sm & P & _ & EP & Hcells).
  - destruct HWF; lia.
  - intros x Hx. eapply shown_pos; eauto.
  - now apply shown_consistent.
  - reflexivity.
  - exact HM1.
  - exact H53.
  - rewrite EF. exact (Hsm i s Hs).
  - exact HN.
  - rewrite EF. exact Hc.
  - rewrite EF. exact Hfew.
  - destruct q as [a b]. destruct (Hcells a b Hq) as (x & E1 & E2). exists x. split.
    + unfold pure_poss_f, vget. rewrite HB. cbn [bind]. rewrite EP. cbn [bind fst snd]. exact E1.
    + unfold risk, worlds_hit, worlds. rewrite <- EF. exact E2.
Qed.

(** one pass over the events from number 2 on *)
Lemma pass_spec_f v st new (P : nat -> Prop) (Q : nat -> comment_f -> Prop) run :
  analysed_f v st -> (forall gs cm, boards_f v gs -> length cm = length (b_rec v) -> exists gs', boards_f v gs' /\
     run (gs, cm) = (let* cm' := notes_f new (rng 2 (length (b_rec v))) cm in Ok (gs', cm'))) ->
  (forall i, P i -> (2 <= i < length (b_rec v))%nat) ->
  (forall i, (2 <= i < length (b_rec v))%nat -> exists cs, new i = Ok cs /\ (P i -> exists c, cs = [c] /\ Q i c) /\ (~ P i -> cs = [])) ->
  exists st', run st = Ok st' /\ marks_events_f P Q (snd st) (snd st').
Proof.
  intros (l & El) Hrun HPi Hnew. destruct (analysed_fine_f El) as [Hg Hc]. destruct st as [gs cm]. cbn [fst snd] in *.
  destruct (Hrun gs cm Hg Hc) as (gs' & Hg' & ->).
  assert (Hch : exists cs, forall i, (2 <= i < length (b_rec v))%nat -> new i = Ok (cs i) /\ (P i -> exists c, cs i = [c] /\ Q i c) /\ (~ P i -> cs i = [])).
  { exists (fun i => match new i with Ok c => c | _ => [] end). intros i Hi. destruct (Hnew i Hi) as (c & E & H). rewrite E. auto. }
  destruct Hch as (cs & Hcs).
  destruct (@notes_ok_f new cs (rng 2 (length (b_rec v))) cm) as (cm' & E & L & Hn).
  { apply seq_NoDup. } { intros i Hi. apply rng_lt in Hi. split; [lia|]. now apply Hcs. }
  rewrite E. cbn [bind]. eexists. split; [reflexivity|]. cbn [snd]. split; auto. intros i Hi. eexists. split; [apply Hn|].
  destruct (existsb (Nat.eqb i) (rng 2 (length (b_rec v)))) eqn:Ex.
  - apply existsb_exists in Ex as (j & Hj & Ej). apply Nat.eqb_eq in Ej. subst j. apply rng_lt in Hj. now apply Hcs.
  - split; auto. intros HPi'. apply HPi in HPi'. exfalso. apply not_true_iff_false in Ex. apply Ex. apply existsb_exists. exists i. split; [now apply rng_lt|apply Nat.eqb_refl].
Qed.

(** ** C67 [high_risk_guess] *)
(** Event [i] opened something, at a cell that was a mine with a probability of at least 0.51 + [d]. *)
Definition risky_by (f : video) (d : real) (i : nat) : Prop :=
  (2 <= i)%nat /\ exists e s u, event_at f i e s u /\ (2 <= u)%nat /\ (51 / 100 + d <= risk f s (cell_at f e))%R.
(** the comment prints the probability of no mine, with an error of at most [2 tol N] *)
Definition risk_comment_f (f : video) (N i : nat) (c : comment_f) : Prop :=
  exists x e s u, c = FRisky x /\ event_at f i e s u /\ is_finite 53 1024 x = true /\ (Rabs (val x - (1 - risk f s (cell_at f e))) <= 2 * tol N)%R.

(** What is marked lies between the risks above 0.51 + tol and those above 0.51 - tol. *)
Theorem C67_high_risk_float_partial : forall f raw now v st N,
  playable f -> right_mines f -> float_file f N -> analyse (of_file f raw now) = Ok v -> analysed_f v st ->
  exists st' P, high_risk_guess_f v st = Ok st' /\ marks_events_f P (risk_comment_f f N) (snd st) (snd st') /\
    (forall i, risky_by f (tol N) i -> P i) /\ (forall i, P i -> risky_by f (- tol N) i).
Proof.
  intros f raw now v st N HP HM Hff EA Hst. pose proof (proj1 HP) as HWF. pose proof Hff as (_ & HN & _). destruct (tol_range HN) as [T1 _]. assert (U : (0 < u52)%R) by apply bpow_gt_0.
  set (P := fun i => (2 <= i < length (b_rec v))%nat /\ exists c, risk_new_f v i = Ok [c]).
  assert (K : forall i, (2 <= i < length (b_rec v))%nat -> exists cs, risk_new_f v i = Ok cs /\ (P i -> exists c, cs = [c] /\ risk_comment_f f N i c) /\ (~ P i -> cs = []) /\
     (cs <> [] -> risky_by f (- tol N) i) /\ (cs = [] -> ~ risky_by f (tol N) i)).
  { intros i Hi. destruct (event_rec HP EA (proj2 Hi)) as (r & e & s & u & Er & Er' & Hev & Han & Hu & Hmo & _ & _ & Hpl).
    assert (Hex : exists cs, risk_new_f v i = Ok cs /\ (cs = [] /\ ~ risky_by f (tol N) i \/ exists c, cs = [c] /\ risk_comment_f f N i c /\ risky_by f (- tol N) i)).
    { unfold risk_new_f. rewrite Er'. cbn [bind]. rewrite Hpl. cbn [bind]. rewrite Hu. destruct (Nat.leb_spec 2 u) as [H2|H2].
      - destruct (event_inb HP Hev ltac:(lia)) as (HL & G & Hinb & _). pose proof Hev as (_ & Hs & _). pose proof (@risk_range f s i (cell_at f e) HWF Hs) as Hr.
        destruct (poss_at_f HP EA HM Hff Er Han HL Hinb) as (x & -> & Hx). cbn [bind]. destruct (risk_cmp HN Hr Hx) as [C1 C2].
        destruct (at_least_51_f x).
        + eexists. split; [reflexivity|]. right. eexists. split; [reflexivity|]. destruct (chance_ok HN Hr Hx) as [F E]. split.
          * exists (fsub f_one x), e, s, u. split; auto. split; auto. split; auto. lra.
          * split; [lia|]. exists e, s, u. repeat (split; [assumption|]). specialize (C1 eq_refl). lra.
        + eexists. split; [reflexivity|]. left. split; auto. intros (_ & e' & s' & u' & Hev' & _ & H). destruct (event_unique Hev Hev') as (-> & -> & ->). specialize (C2 eq_refl). lra.
      - eexists. split; [reflexivity|]. left. split; auto. intros (_ & e' & s' & u' & Hev' & H & _). destruct (event_unique Hev Hev') as (-> & -> & ->). lia. }
    destruct Hex as (cs & E & [[-> Hn]|(c & -> & Hc & Hr)]); eexists; (split; [exact E|]).
    - split; [intros (_ & c & E'); rewrite E in E'; discriminate E'|]. split; auto. split; auto. congruence.
    - split; [intros _; eauto|]. split; [|split; [auto|intros X; discriminate X]]. intros Hn. exfalso. apply Hn. split; eauto. }
  destruct (@pass_spec_f v st (risk_new_f v) P (risk_comment_f f N) (high_risk_guess_f v) Hst) as (st' & E & Hm).
  - intros gs cm. apply risk_eq_f.
  - intros i [Hi _]. exact Hi.
  - intros i Hi. destruct (K i Hi) as (cs & E & H1 & H2 & _). eauto.
  - exists st', P. split; auto. split; auto. split.
    + intros i Hr. assert (Hi : (2 <= i < length (b_rec v))%nat).
      { destruct Hr as (Hi & e & s & u & (He & _) & _). split; auto. rewrite (events_len HP EA). apply nth_error_Some. congruence. }
      split; auto. destruct (K i Hi) as (cs & E1 & H1 & H2 & H3 & H4). destruct cs as [|c cs]; [destruct (H4 eq_refl Hr)|].
      assert (HPi : P i \/ ~ P i) by apply Classical_Prop.classic. destruct HPi as [HPi|HPi]; [destruct (H1 HPi) as (c' & E' & _); injection E' as -> ->; eauto|discriminate (H2 HPi)].
    + intros i HPi. destruct (K i (proj1 HPi)) as (cs & E1 & H1 & H2 & H3 & H4). apply H3. destruct (H1 HPi) as (c & -> & _). discriminate.
Qed.
Print Assumptions C67_high_risk_float_partial.

(** ** C69 [needless_guess]: the same events as with exact probabilities *)
Lemma risk_zero f s i q : well_formed f -> game_after f i = Ok s -> (0 < risk f s q)%R <-> worlds_hit f s q <> 0%nat.
Proof.
  intros HWF Hs. pose proof (worlds_pos HWF Hs) as Hw. unfold risk. assert (RW : (0 < INR (worlds f s))%R) by (apply lt_0_INR; lia). split.
  - intros H E. rewrite E in H. change (INR 0) with 0%R in H. unfold Rdiv in H. rewrite Rmult_0_l in H. lra.
  - intros H. apply Rdiv_lt_0_compat; auto. apply lt_0_INR. lia.
Qed.
Theorem C69_needless_float_partial : forall f raw now v st N,
  playable f -> right_mines f -> float_file f N -> analyse (of_file f raw now) = Ok v -> analysed_f v st ->
  exists st', needless_guess_f v st = Ok st' /\ marks_events_f (left_guess f) (fun _ c => c = FSay Needless) (snd st) (snd st').
Proof.
  intros f raw now v st N HP HM Hff EA Hst. pose proof (proj1 HP) as HWF. pose proof Hff as (_ & HN & _). refine (@pass_spec_f v st (needless_new_f v) _ _ _ Hst _ _ _).
  - intros gs cm. apply needless_eq_f.
  - intros i (Hi & e & s & u & (He & _) & _). split; auto. rewrite (events_len HP EA). apply nth_error_Some. congruence.
  - intros i Hi. destruct (event_rec HP EA (proj2 Hi)) as (r & e & s & u & Er & Er' & Hev & Han & Hu & Hmo & _ & _ & Hpl).
    unfold needless_new_f. rewrite Er'. cbn [bind]. rewrite Hu, Hmo.
    destruct ((2 <=? u)%nat && event_eqb (ve_mouse e) e_lr) eqn:C1.
    + apply andb_true_iff in C1 as [C1 C2]. apply Nat.leb_le in C1. apply event_eqb_iff in C2. rewrite Hpl. cbn [bind].
      destruct (event_inb HP Hev ltac:(lia)) as (HL & G & Hinb & _). pose proof Hev as (_ & Hs & _). pose proof (@risk_range f s i (cell_at f e) HWF Hs) as Hr.
      destruct (poss_at_f HP EA HM Hff Er Han HL Hinb) as (x & -> & Hx). cbn [bind].
      assert (Hiff : positive_f x = true <-> worlds_hit f s (cell_at f e) <> 0%nat) by (rewrite (risk_pos HN Hr Hx); eapply risk_zero; eauto).
      destruct (list_at HWF EA Er Han HL) as (sm & HLi & HF & HMs). rewrite !HLi. cbn [bind gpick].
      destruct (positive_f x).
      * assert (Hhit : worlds_hit f s (cell_at f e) <> 0%nat) by now apply Hiff.
        destruct (mem_pos_spec (cell_at f e) (gb_basic_not sm)) as [M1|M1].
        { exfalso. apply Hhit. apply determined_no_hit. now apply (ms_bnot HMs). }
        destruct (mem_pos_spec (cell_at f e) (gb_enum_not sm)) as [M2|M2].
        { exfalso. apply Hhit. apply determined_no_hit. now apply (ms_enot HMs). }
        eexists. split; [reflexivity|]. split; eauto. intros Hn. exfalso. apply Hn. split; [lia|]. exists e, s, u. auto.
      * eexists. split; [reflexivity|]. split; auto. intros (_ & e' & s' & u' & Hev' & _ & _ & Hh). destruct (event_unique Hev Hev') as (-> & -> & ->).
        apply Hiff in Hh. discriminate Hh.
    + eexists. split; [reflexivity|]. split; auto. intros (_ & e' & s' & u' & Hev' & Hu' & Hm' & _). destruct (event_unique Hev Hev') as (-> & -> & ->).
      rewrite Hm' in C1. cbn [event_eqb] in C1. rewrite andb_true_r in C1. apply Nat.leb_gt in C1. lia.
Qed.
Print Assumptions C69_needless_float_partial.

(** ** C71 [survive_poss] *)
(** event [i] is a left release that took effect, not the first such, at a cell whose risk was above 0 and at most [c] *)
Definition lucky_upto (f : video) (c : real) (i : nat) : Prop :=
  (exists k, (k < i)%nat /\ left_effect f k) /\ exists e s u, event_at f i e s u /\ ve_mouse e = e_lr /\ (1 <= u)%nat /\
    (0 < risk f s (cell_at f e) <= c)%R.
(** [p] is the probability of no mine there *)
Definition chance_of (f : video) (i : nat) (p : real) : Prop := exists e s u, event_at f i e s u /\ p = (1 - risk f s (cell_at f e))%R.
Definition product (ps : list real) : real := fold_right Rmult 1%R ps.

Local Notation rnd := (round radix2 (SpecFloat.fexp 53 1024) ZnearestE).
Lemma rnd_unit t : (0 <= t <= 1)%R -> (0 <= rnd t <= 1)%R.
Proof.
  intros [H0 H1]. split.
  - rewrite <- (@int_exact 0) by lia. apply round_le; [apply FLT_exp_valid; reflexivity|apply valid_rnd_N|exact H0].
  - rewrite <- (@int_exact 1) by lia. apply round_le; [apply FLT_exp_valid; reflexivity|apply valid_rnd_N|exact H1].
Qed.
Lemma chance_unit x : is_finite 53 1024 x = true -> (0 <= val x <= 1)%R -> (0 <= val (fsub f_one x) <= 1)%R.
Proof.
  intros Fx Hx. destruct one_ok as [V1 F1].
  pose proof (Bminus_correct 53 1024 (eq_refl : (0 < 53)%Z) (eq_refl : (53 < 1024)%Z) binop_nan_pl64 mode_NE f_one x F1 Fx) as HD.
  change (round_mode mode_NE) with ZnearestE in HD. rewrite V1 in HD. assert (HR : (0 <= rnd (1 - val x) <= 1)%R) by (apply rnd_unit; lra).
  rewrite Rlt_bool_true in HD by (apply rnd_small, Rabs_le; lra). destruct HD as (V & _).
  change (Bminus 53 1024 eq_refl eq_refl binop_nan_pl64 mode_NE f_one x) with (fsub f_one x) in *. now rewrite V.
Qed.
Lemma mul_unit x y : is_finite 53 1024 x = true -> is_finite 53 1024 y = true -> (0 <= val x <= 1)%R -> (0 <= val y <= 1)%R -> (0 <= val (fmul x y) <= 1)%R.
Proof.
  intros Fx Fy Hx Hy. pose proof (Bmult_correct 53 1024 (eq_refl : (0 < 53)%Z) (eq_refl : (53 < 1024)%Z) binop_nan_pl64 mode_NE x y) as HD.
  change (round_mode mode_NE) with ZnearestE in HD. assert (HP : (0 <= val x * val y <= 1)%R) by nra.
  rewrite Rlt_bool_true in HD by (apply rnd_small, Rabs_le; lra). destruct HD as (V & _).
  change (Bmult 53 1024 eq_refl eq_refl binop_nan_pl64 mode_NE x y) with (fmul x y) in *. rewrite V. now apply rnd_unit.
Qed.
Lemma product_app ps p : product (ps ++ [p]) = (product ps * p)%R.
Proof. unfold product. induction ps as [|a ps IH]; cbn [app fold_right]; [ring|]. rewrite IH. ring. Qed.

Theorem C71_survive_float_partial : forall f raw now v st N,
  playable f -> v_events f <> [] -> right_mines f -> float_file f N -> analyse (of_file f raw now) = Ok v -> analysed_f v st ->
  exists st' is ps xs s, survive_poss_f v st = Ok st' /\ snd st' = removelast (snd st) ++ [[FLuck xs s]] /\
    StronglySorted lt is /\ (forall i, lucky_upto f (1 - 2 * tol N) i -> In i is) /\ (forall i, In i is -> lucky_upto f 1 i) /\
    Forall2 (chance_of f) is ps /\
    Forall2 (fun x p => is_finite 53 1024 x = true /\ (Rabs (val x - p) <= 2 * tol N)%R) xs ps /\
    is_finite 53 1024 s = true /\ (Rabs (val s - product ps) <= INR (length is) * (2 * tol N))%R.
Proof.
  intros f raw now v st N HP Hne HM Hff EA (fl & El). pose proof (proj1 HP) as HWF. destruct (analysed_fine_f El) as [Hg Hc]. destruct st as [gs cm]. cbn [fst snd] in *.
  pose proof Hff as (_ & HN & _). destruct (tol_range HN) as [T1 T2]. assert (U : (0 < u52)%R) by apply bpow_gt_0.
  assert (Hlen : (0 < length (b_rec v))%nat) by (rewrite (events_len HP EA); destruct (v_events f); [congruence|cbn; lia]).
  destruct (@survive_eq_f v gs cm Hg) as (gs' & _ & ->).
  assert (K : forall n, (n <= length (b_rec v))%nat -> exists xs s b is ps, foldM (survive_step_f v) (seq 0 n) ([], f_one, false) = Ok (xs, s, b) /\
     (b = true <-> exists k, (k < n)%nat /\ left_effect f k) /\ StronglySorted lt is /\
     (forall i, lucky_upto f (1 - 2 * tol N) i -> (i < n)%nat -> In i is) /\ (forall i, In i is -> lucky_upto f 1 i /\ (i < n)%nat) /\
     Forall2 (chance_of f) is ps /\ Forall2 (fun x p => is_finite 53 1024 x = true /\ (Rabs (val x - p) <= 2 * tol N)%R) xs ps /\
     is_finite 53 1024 s = true /\ (0 <= val s <= 1)%R /\ (Rabs (val s - product ps) <= INR (length is) * (2 * tol N))%R).
  { induction n as [|n IH]; intros Hn.
    - exists [], f_one, false, [], []. destruct one_ok as [V1 F1]. split; auto. split; [split; [intros X; discriminate X|intros (k & Hk & _); lia]|]. split; [constructor|]. split; [intros i _ Hi; lia|]. split; [intros i []|].
      split; [constructor|]. split; [constructor|]. split; [exact F1|]. rewrite V1. split; [lra|]. cbn [product fold_right length INR]. replace (1 - 1)%R with 0%R by ring. rewrite Rabs_R0. lra.
    - destruct (IH ltac:(lia)) as (xs & s0 & b & is & ps & Ef & Hb & Hss & Hin1 & Hin2 & Hf2 & Hx2 & Fs & Us & Es). rewrite seq_S, foldM_app, Ef. cbn [bind Nat.add foldM].
      destruct (event_rec HP EA (i := n) ltac:(lia)) as (r & e & s & u & Er & Er' & Hev & Han & Hu & Hmo & _ & _ & Hpl).
      assert (Hle : left_effect f n <-> ve_mouse e = e_lr /\ (1 <= u)%nat).
      { split; [intros (e' & s' & u' & Hev' & H1 & H2); destruct (event_unique Hev Hev') as (-> & -> & ->); auto|intros [H1 H2]; exists e, s, u; auto]. }
      unfold survive_step_f. rewrite Er'. cbn [bind]. rewrite Hmo, Hu.
      (* nothing is added *)
      assert (Skip : forall b', (b' = true <-> exists k, (k < S n)%nat /\ left_effect f k) -> ~ lucky_upto f (1 - 2 * tol N) n ->
        exists xs' s' b'' is' ps', Ok (xs, s0, b') = Ok (xs', s', b'') /\
        (b'' = true <-> exists k, (k < S n)%nat /\ left_effect f k) /\ StronglySorted lt is' /\
        (forall i, lucky_upto f (1 - 2 * tol N) i -> (i < S n)%nat -> In i is') /\ (forall i, In i is' -> lucky_upto f 1 i /\ (i < S n)%nat) /\
        Forall2 (chance_of f) is' ps' /\ Forall2 (fun x p => is_finite 53 1024 x = true /\ (Rabs (val x - p) <= 2 * tol N)%R) xs' ps' /\
        is_finite 53 1024 s' = true /\ (0 <= val s' <= 1)%R /\ (Rabs (val s' - product ps') <= INR (length is') * (2 * tol N))%R).
      { intros b' Hb' Hno. exists xs, s0, b', is, ps. split; auto. split; [exact Hb'|]. split; [exact Hss|]. split.
        { intros i Hi Hl. destruct (Nat.eq_dec i n) as [->|]; [contradiction|]. apply Hin1; [exact Hi|lia]. }
        split. { intros i Hi. destruct (Hin2 i Hi). split; [assumption|lia]. }
        split; [exact Hf2|]. split; [exact Hx2|]. split; [exact Fs|]. split; [exact Us|exact Es]. }
      destruct (event_eqb (ve_mouse e) e_lr && (1 <=? u)%nat) eqn:C.
      + apply andb_true_iff in C as [C1 C2]. apply event_eqb_iff in C1. apply Nat.leb_le in C2. assert (Hln : left_effect f n) by now apply Hle.
        assert (Ht : true = true <-> exists k, (k < S n)%nat /\ left_effect f k) by (split; auto; intros _; exists n; split; [lia|auto]).
        destruct b; cbn [negb bind].
        * rewrite Hpl. cbn [bind]. destruct (event_inb HP Hev C2) as (HL & G & Hinb & _). pose proof Hev as (_ & Hs & _). pose proof (@risk_range f s n (cell_at f e) HWF Hs) as Hr.
          destruct (poss_at_f HP EA HM Hff Er Han HL Hinb) as (x & -> & Hx). cbn [bind]. pose proof (risk_pos HN Hr Hx) as I1. pose proof (risk_below HN Hr Hx) as I2.
          destruct (positive_f x && below_one_f x) eqn:D; cbn [bind].
          -- apply andb_true_iff in D as [D1 D2]. destruct (chance_ok HN Hr Hx) as [Fd Ed]. destruct Hx as [Fx Ex].
             assert (Ux : (0 <= val x <= 1)%R).
             { destruct one_ok as [V1 F1]. destruct zero_ok as [V0 F0]. unfold positive_f in D1. unfold below_one_f in D2. apply (lt_finite F0 Fx) in D1. apply (lt_finite Fx F1) in D2. lra. }
             pose proof (chance_unit Fx Ux) as Ud. set (d := fsub f_one x) in *. set (p := (1 - risk f s (cell_at f e))%R) in *. assert (Hp1 : (0 <= p <= 1)%R) by (unfold p; lra).
             assert (Hsz : (0 <= val s0 * val d <= 1)%R) by nra.
             destruct (@mul_abs s0 d Fs Fd) as [Fm Em]; [apply Rabs_le; lra|]. pose proof (mul_unit Fs Fd Us Ud) as Um.
             exists (xs ++ [d]), (fmul s0 d), true, (is ++ [n]), (ps ++ [p]). split; auto. split; [exact Ht|]. split; [|split; [|split; [|split; [|split; [|split; [exact Fm|split; [exact Um|]]]]]]].
             ++ clear - Hss Hin2. assert (Hlt : Forall (fun i => i < n)%nat is) by (apply Forall_forall; intros i Hi; apply Hin2 in Hi; lia). clear Hin2.
                induction Hss as [|i is Hss IH Hall]; cbn [app]; [repeat constructor|]. inversion Hlt; subst. constructor; auto. apply Forall_app. auto.
             ++ intros i Hi Hl. apply in_app_iff. destruct (Nat.eq_dec i n) as [->|]; [right; now left|left; apply Hin1; [exact Hi|lia]].
             ++ intros i Hi. apply in_app_iff in Hi as [Hi|[<-|[]]]; [destruct (Hin2 i Hi); split; [assumption|lia]|]. split; [|lia]. split; [now apply Hb|]. exists e, s, u. split; [exact Hev|]. split; [exact C1|]. split; [exact C2|].
                split; [now apply I1|apply Hr].
             ++ apply Forall2_app; [exact Hf2|]. constructor; [|constructor]. exists e, s, u. split; [exact Hev|reflexivity].
             ++ apply Forall2_app; [exact Hx2|]. constructor; [|constructor]. split; [exact Fd|]. lra.
             ++ rewrite product_app, app_length, plus_INR. change (INR (length [n])) with 1%R. apply Rabs_le_inv in Em, Ed.
                set (E := (INR (length is) * (2 * tol N))%R) in *. replace ((INR (length is) + 1) * (2 * tol N))%R with (E + 2 * tol N)%R by (unfold E; ring).
                set (S0 := product ps) in *. assert (X1 : (Rabs ((val s0 - S0) * p) <= E)%R).
                { rewrite Rabs_mult, (Rabs_pos_eq p) by lra. pose proof (Rabs_pos (val s0 - S0)). nra. }
                assert (X2 : (Rabs (val s0 * (val d - p)) <= tol N + u52)%R). { rewrite Rabs_mult, (Rabs_pos_eq (val s0)) by lra. assert (A : (Rabs (val d - p) <= tol N + u52)%R) by (apply Rabs_le; lra). pose proof (Rabs_pos (val d - p)). nra. }
                apply Rabs_le_inv in X1, X2. apply Rabs_le. nra.
          -- apply Skip; [exact Ht|]. intros (_ & e' & s' & u' & Hev' & _ & _ & H). destruct (event_unique Hev Hev') as (-> & -> & ->). apply andb_false_iff in D.
             destruct D as [D|D]; [destruct H as [H _]; apply I1 in H; congruence|]. rewrite I2 in D; [discriminate D|lra].
        * apply Skip; [exact Ht|]. intros ((k & Hk) & _). assert (X : false = true) by (apply Hb; eauto). discriminate X.
      + assert (Hln : ~ left_effect f n). { intros X. apply Hle in X as [X1 X2]. rewrite X1 in C. apply Nat.leb_le in X2. rewrite X2 in C. discriminate C. }
        cbn [bind]. apply Skip.
        * rewrite Hb. split; intros (k & Hk & H); exists k; split; auto; try lia. destruct (Nat.eq_dec k n) as [->|]; [contradiction|lia].
        * intros (_ & e' & s' & u' & H1 & H2 & H3 & _). apply Hln. exists e', s', u'. auto. }
  destruct (K (length (b_rec v)) (le_n _)) as (xs & s & b & is & ps & -> & _ & Hss & Hin1 & Hin2 & Hf2 & Hx2 & Fs & _ & Es). cbn [bind].
  destruct cm as [|c cm]; [cbn in Hc; lia|]. eexists _, is, ps, xs, s. split; [reflexivity|]. split; [reflexivity|]. split; [exact Hss|]. split.
  { intros i Hi. apply Hin1; auto. destruct Hi as (_ & e & s' & u & (He & _) & _). rewrite (events_len HP EA). apply nth_error_Some. congruence. }
  split; [intros i Hi; now apply Hin2|]. split; [exact Hf2|]. split; [exact Hx2|]. split; [exact Fs|exact Es].
Qed.
Print Assumptions C71_survive_float_partial.

(** ** Small files *)
(** boards of at most 38 cells *)
Theorem small_float_file : forall f n, (1 <= v_height f)%nat -> (v_height f * v_width f <= n)%nat -> (n <= 38)%nat -> well_formed f -> float_file f (2 ^ n).
Proof.
  intros f n H1 H2 H3 HWF. assert (P : forall g, (length (covered_cells (v_height f) (v_width f) g) <= n)%nat).
  { intros g. refine (Nat.le_trans _ _ _ _ H2). rewrite <- (length_positions (v_height f) (v_width f)). unfold covered_cells. clear; induction (positions _ _) as [|q l IH]; cbn; [lia|destruct (coveredb g q); cbn; lia]. }
  split; [apply few_small; lia|]. split; [apply Nat.pow_le_mono_r; [discriminate|exact H3]|]. split.
  - unfold mines. assert (L : (count (is_mine (v_board f)) (positions (v_height f) (v_width f)) <= 38)%nat).
    { refine (Nat.le_trans _ _ _ _ H3). refine (Nat.le_trans _ _ _ _ H2). rewrite <- (length_positions (v_height f) (v_width f)). unfold count. clear. induction (positions _ _) as [|q l IH]; cbn; [lia|]. destruct (is_mine (v_board f) q); cbn; lia. }
    apply Z.le_lt_trans with 38; [lia|reflexivity].
  - intros i s Hs. split; [refine (Nat.le_trans _ _ _ (P _) _); lia|]. intros h [Hr _]. apply (few_covered_choices Hr); [lia|apply P].
Qed.
Print Assumptions small_float_file.
(** the comments after the analyses [l] *)
Definition comments_of_f (f : video) (l : list feature) : R (list (list comment_f)) :=
  let* v := analyse (of_file f [] 0) in let* st := analyse_for_features_f v (fstart_f v) l in Ok (snd st).
(** The guess of [C67_case]: the risk is 2/3; printed is the double 1/3 (plus one unit in the last place). *)
Example C67_float_case : playable guess_file /\ right_mines guess_file /\ float_file guess_file (2 ^ 4) /\ risky_by guess_file (tol (2 ^ 4)) 3 /\
  left_guess guess_file 3 /\ lucky_upto guess_file (1 - 2 * tol (2 ^ 4)) 3 /\
  match comments_of_f guess_file [High_risk_guess; Needless_guess] with
  | Ok [[]; []; []; [FRisky x; FSay Needless]] => bits_of_b64 x = (bits_of_b64 (fdiv (f_of 1) (f_of 3)) + 1)%Z
  | _ => False
  end /\
  match comments_of_f guess_file [High_risk_guess; Survive_poss] with
  | Ok [[]; []; []; [FLuck [x] s]] => bits_of_b64 x = (bits_of_b64 (fdiv (f_of 1) (f_of 3)) + 1)%Z /\ bits_of_b64 s = bits_of_b64 x
  | _ => False
  end.
Proof.
  destruct C71_case as (H1 & H2 & H3 & (H4 & _) & _). split; [exact H1|]. split; [exact H2|]. split; [apply small_float_file; cbn; try lia; apply H1|].
  assert (T : (0 < tol (2 ^ 4) <= / 2048)%R). { destruct (@tol_range (2 ^ 4)) as [T1 T2]; [apply Nat.pow_le_mono_r; lia|]. assert (U : (0 < u52)%R) by apply bpow_gt_0. lra. }
  assert (Hev : exists e s, event_at guess_file 3 e s 2 /\ ve_mouse e = e_lr /\ worlds_hit guess_file s (cell_at guess_file e) = 2%nat /\ worlds guess_file s = 3%nat).
  { eexists _, _. split; [split; [reflexivity|split; [vm_compute; reflexivity|eexists; vm_compute; reflexivity]]|]. split; [reflexivity|]. split; vm_compute; reflexivity. }
  destruct Hev as (e & s & Hev & Hm & W1 & W2). assert (Hr : risk guess_file s (cell_at guess_file e) = (2 / 3)%R) by (unfold risk; rewrite W1, W2; simpl; lra).
  split; [split; [lia|]; exists e, s, 2%nat; split; [exact Hev|]; split; [lia|]; rewrite Hr; lra|].
  split; [split; [lia|]; exists e, s, 2%nat; split; [exact Hev|]; split; [lia|]; split; [exact Hm|]; rewrite W1; discriminate|].
  split; [split; [exact H4|]; exists e, s, 2%nat; split; [exact Hev|]; split; [exact Hm|]; split; [lia|]; rewrite Hr; lra|].
  split; vm_compute; [reflexivity|split; reflexivity].
Qed.
