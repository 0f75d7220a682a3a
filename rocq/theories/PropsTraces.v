(** * PropsTraces: the analyses of the mouse movement and of whole games (C70-C73). *)
From Coq Require Import Sorting.Sorted.
From Verif Require Import Base Spec BaseFacts LayMine Metrics MineBoard MineBoardProofs Matrix Solve SolverSpec MatrixProofs LinFacts ChunkProofs EnumSolve PosProofs BoardCache SolveProofs EnumProofs TableProofs LayMineProofs EnumBlock StoreProofs Utils GuessSpec PossSums
  PossSpec Possibility PossMain PropsPoss MarkWorlds Evf EvfSpec BaseVideo PropsSetters PropsGame PropsReplay PropsShow Features FeatReplay FeatProofs FeatSem PropsFeatures.
Open Scope Z_scope.

(** ** C70 [vision_transfer] *)
(** Event [i] opened something (by a left click or a chord). *)
Definition opens (f : video) (i : nat) : Prop := exists e s u, event_at f i e s u /\ (2 <= u)%nat.
(** [i] is the next opening after [j]; [j] is an opening or the first event of the file. *)
Definition next_opening (f : video) (j i : nat) : Prop :=
  (j < i)%nat /\ opens f i /\ (j = 0%nat \/ opens f j) /\ forall k, (j < k < i)%nat -> ~ opens f k.
(** at least 112 pixels apart *)
Definition far_apart (e e' : vev) : Prop := 112 * 112 <= (ve_x e - ve_x e') * (ve_x e - ve_x e') + (ve_y e - ve_y e') * (ve_y e - ve_y e').
(** at most three rows and columns apart *)
Definition within3 (p q : pos) : Prop := (fst q <= fst p + 3 /\ fst p <= fst q + 3 /\ snd q <= snd p + 3 /\ snd p <= snd q + 3)%nat.
(** After event [j] the cursor goes far away for the next opening, although near event [j] a safe cell was known. *)
Definition left_behind (f : video) (j : nat) : Prop :=
  exists i e e' s u l1 l2 q, next_opening f j i /\ nth_error (v_events f) j = Some e /\ event_at f i e' s u /\ far_apart e e' /\
    finds (m_gb s) Gbasic_not l1 /\ finds (m_gb s) Genum_not l2 /\ (In q l1 \/ In q l2) /\ within3 (cell_at f e) q.

Section Last.
Variables (f : video) (raw : list Z) (now : Z) (v : bv) (HP : playable f) (EA : analyse (of_file f raw now) = Ok v).
Lemma opens_rec i r : nth_error (b_rec v) i = Some r -> ((2 <= r_useful r)%nat <-> opens f i).
Proof.
  intros Er. assert (Hi : (i < length (b_rec v))%nat) by (apply nth_error_Some; congruence).
  destruct (event_rec HP EA Hi) as (r' & e & s & u & Er' & _ & Hev & _ & Hu & _). rewrite Er in Er'. injection Er' as <-. rewrite Hu. split.
  - intros H. exists e, s, u. auto.
  - intros (e' & s' & u' & Hev' & H). destruct (event_unique Hev Hev') as (_ & _ & ->). auto.
Qed.
Lemma last_click_spec i : (i <= length (b_rec v))%nat -> (0 < i)%nat -> (last_click (b_rec v) i < i)%nat /\
  (last_click (b_rec v) i = 0%nat \/ opens f (last_click (b_rec v) i)) /\ forall k, (last_click (b_rec v) i < k < i)%nat -> ~ opens f k.
Proof.
  induction i as [|i IH]; intros Hi H0; [lia|]. cbn [last_click].
  destruct (nth_error (b_rec v) i) as [r|] eqn:E; [|apply nth_error_None in E; lia]. pose proof (opens_rec E) as Ho.
  destruct (Nat.leb_spec 2 (r_useful r)) as [H|H].
  - split; [lia|]. split; [right; now apply Ho|]. intros k Hk. lia.
  - assert (Hno : ~ opens f i) by (intros X; apply Ho in X; lia). destruct i as [|i].
    + cbn [last_click]. split; [lia|]. split; auto. intros k Hk. lia.
    + destruct (IH ltac:(lia) ltac:(lia)) as (I1 & I2 & I3). split; [lia|]. split; auto. intros k Hk. destruct (Nat.eq_dec k (S i)) as [->|]; auto. apply I3. lia.
Qed.
Lemma next_last j i : (i < length (b_rec v))%nat -> (next_opening f j i <-> (0 < i)%nat /\ opens f i /\ last_click (b_rec v) i = j).
Proof.
  intros Hi. split.
  - intros (H1 & H2 & H3 & H4). split; [lia|]. split; auto. destruct (@last_click_spec i ltac:(lia) ltac:(lia)) as (L1 & L2 & L3).
    set (k := last_click (b_rec v) i) in *. destruct (Nat.lt_trichotomy k j) as [H|[H|H]]; auto.
    + exfalso. destruct H3 as [->|H3]; [lia|]. apply (L3 j); auto.
    + exfalso. destruct L2 as [L2|L2]; [lia|]. apply (H4 k); auto.
  - intros (H1 & H2 & <-). destruct (@last_click_spec i ltac:(lia) ltac:(lia)) as (L1 & L2 & L3). split; [lia|]. auto.
Qed.
Lemma next_unique j i i' : next_opening f j i -> next_opening f j i' -> i = i'.
Proof.
  intros (A1 & A2 & _ & A4) (B1 & B2 & _ & B4). destruct (Nat.lt_trichotomy i i') as [H|[H|H]]; auto; exfalso; [apply (B4 i)|apply (A4 i')]; auto.
Qed.
End Last.
Lemma close_within l q : close_to l q = true <-> within3 l q.
Proof. unfold close_to, within3. rewrite !andb_true_iff, !Nat.leb_le. tauto. Qed.
Lemma flat_map_nil {A B} (g : A -> list B) l : (forall y, In y l -> g y = []) -> flat_map g l = [].
Proof. induction l as [|a l IH]; intros H; auto. cbn [flat_map]. rewrite (H a) by now left. apply IH. intros y Hy. apply H. now right. Qed.
Lemma flat_map_one {A B} (g : A -> list B) l x : NoDup l -> In x l -> (forall y, In y l -> y <> x -> g y = []) -> flat_map g l = g x.
Proof.
  induction l as [|a l IH]; intros Nd Hx H; [destruct Hx|]. apply NoDup_cons_iff in Nd as [Ha Nd]. cbn [flat_map]. destruct Hx as [->|Hx].
  - rewrite (@flat_map_nil _ _ g l); [now rewrite app_nil_r|]. intros y Hy. apply H; [now right|]. intros ->. contradiction.
  - rewrite (H a); [|now left|intros ->; contradiction]. cbn [app]. apply IH; auto. intros y Hy. apply H. now right.
Qed.

Theorem C70_vision_transfer : forall f raw now v st,
  playable f -> v_events f <> [] -> analyse (of_file f raw now) = Ok v -> analysed v st ->
  exists st', vision_transfer v st = Ok st' /\ marks_events (left_behind f) (fun _ c => c = Vision) (snd st) (snd st').
Proof.
  intros f raw now v st HP Hne EA (fl & El). pose proof (proj1 HP) as HWF. destruct (analysed_fine El) as [Hg Hc]. destruct st as [gs cm]. cbn [fst snd] in *.
  assert (Hlen : (0 < length (b_rec v))%nat) by (rewrite (events_len HP EA); destruct (v_events f); [congruence|cbn; lia]).
  destruct (event_rec HP EA Hlen) as (r0 & e0 & _ & _ & Er0 & _ & _ & _ & _ & _ & _ & _ & Hpl0).
  destruct (vision_eq Hg Hc Er0 Hpl0) as (gs' & _ & ->).
  assert (Hnew : forall i, (i < length (b_rec v))%nat -> exists cs, vision_new v i = Ok cs /\
     ((0 < i)%nat /\ opens f i -> left_behind f (last_click (b_rec v) i) -> cs = [Vision]) /\
     ((i = 0%nat \/ ~ opens f i \/ ~ left_behind f (last_click (b_rec v) i)) -> cs = [])).
  { intros i Hi. destruct (event_rec HP EA Hi) as (r & e' & s & u & Er & Er' & Hev & Han & Hu & Hmo & Hx & Hy & Hpl). pose proof (opens_rec HP EA Er) as Ho.
    unfold vision_new. rewrite Er'. cbn [bind]. destruct (Nat.leb_spec 2 (r_useful r)) as [H2|H2].
    2:{ exists []. split; auto. split; auto. intros (_ & X). apply Ho in X. lia. }
    assert (Hli : (last_click (b_rec v) i < length (b_rec v))%nat) by (apply last_click_lt; lia).
    destruct (event_rec HP EA Hli) as (rl & e & _ & _ & Erl & Erl' & (Hel & _) & _ & _ & _ & Hxl & Hyl & Hpll).
    rewrite Erl'. cbn [bind]. rewrite Hpll. cbn [bind]. rewrite Hpl. destruct (event_inb HP Hev ltac:(lia)) as (HL & _).
    destruct (list_at HWF EA Er Han HL) as (sm & HLi & HF & HMs). rewrite !HLi. cbn [bind gpick].
    rewrite Hx, Hy, Hxl, Hyl.
    assert (Hlb : (0 < i)%nat -> left_behind f (last_click (b_rec v) i) -> far_apart e e' /\ exists q, (In q (gb_basic_not sm) \/ In q (gb_enum_not sm)) /\ within3 (cell_at f e) q).
    { intros H0 (i' & e1 & e2 & s2 & u2 & l1 & l2 & q & Hn & He1 & Hev2 & Hfar & F1 & F2 & Hq & Hw).
      assert (Hn' : next_opening f (last_click (b_rec v) i) i). { apply (next_last HP EA _ Hi). split; auto. split; auto. now apply Ho. }
      pose proof (next_unique Hn Hn') as ->. destruct (event_unique Hev Hev2) as (-> & -> & ->). rewrite Hel in He1. injection He1 as <-. split; auto.
      rewrite (finds_unique F1 (HF _)), (finds_unique F2 (HF _)) in Hq. eauto. }
    destruct (Z.leb_spec 12544 ((ve_y e - ve_y e') * (ve_y e - ve_y e') + (ve_x e - ve_x e') * (ve_x e - ve_x e'))) as [Hd|Hd]; cbn [bind].
    2:{ exists []. split; auto. split; auto. intros (H0 & _) Hl. destruct (Hlb H0 Hl) as [X _]. unfold far_apart in X. lia. }
    eexists. split; [reflexivity|]. split.
    - intros (H0 & _) Hl. destruct (Hlb H0 Hl) as (_ & q & Hq & Hw). apply close_within in Hw.
      replace (existsb (close_to (cell_at f e)) (gb_basic_not sm) || existsb (close_to (cell_at f e)) (gb_enum_not sm)) with true; auto.
      symmetry. apply orb_true_iff. destruct Hq; [left|right]; apply existsb_exists; eauto.
    - intros Hcase. destruct (_ || _) eqn:Ex; auto. exfalso.
      assert (H0 : (0 < i)%nat). { destruct i; [|lia]. cbn [last_click] in Hel. destruct Hev as (He & _). rewrite Hel in He. injection He as <-. lia. }
      destruct Hcase as [Hcase|[Hcase|Hcase]]; [lia|apply Hcase; now apply Ho|]. apply Hcase.
      assert (Hq : exists q, (In q (gb_basic_not sm) \/ In q (gb_enum_not sm)) /\ within3 (cell_at f e) q).
      { apply orb_true_iff in Ex as [Ex|Ex]; apply existsb_exists in Ex as (q & Hq & Hw); apply close_within in Hw; eauto. }
      destruct Hq as (q & Hq & Hw). exists i, e, e', s, u, (gb_basic_not sm), (gb_enum_not sm), q.
      split; [apply (next_last HP EA _ Hi); split; auto; split; auto; now apply Ho|]. split; auto. split; auto. split; [unfold far_apart; lia|]. split; [apply (HF Gbasic_not)|]. split; [apply (HF Genum_not)|]. auto. }
  set (cs := fun i => match vision_new v i with Ok c => c | _ => [] end).
  destruct (@vision_notes_ok v cs (seq 0 (length (b_rec v))) cm ltac:(lia) Hc) as (cm' & -> & L & Hn).
  { intros i Hi. apply in_seq in Hi. split; [lia|]. destruct (Hnew i ltac:(lia)) as (c & E & _). unfold cs. now rewrite E. }
  cbn [bind]. eexists. split; [reflexivity|]. cbn [snd]. split; auto. intros j Hj. eexists. split; [apply Hn|].
  assert (Hz : forall i, (i < length (b_rec v))%nat -> ~ (next_opening f j i /\ left_behind f j) -> (if (last_click (b_rec v) i =? j)%nat then cs i else []) = []).
  { intros i Hi Hno. destruct (Nat.eqb_spec (last_click (b_rec v) i) j) as [El'|]; auto. destruct (Hnew i Hi) as (c & E & _ & Hc0). unfold cs. rewrite E. apply Hc0.
    destruct i as [|i]; auto. right. destruct (nth_error (b_rec v) (S i)) as [r|] eqn:Er; [|apply nth_error_None in Er; lia]. pose proof (opens_rec HP EA Er) as Ho.
    destruct (Nat.le_gt_cases 2 (r_useful r)) as [H2|H2]; [|left; intros X; apply Ho in X; lia]. right. intros Hlb. apply Hno. rewrite El' in Hlb. split; auto.
    apply (next_last HP EA _ Hi). split; [lia|]. split; [now apply Ho|auto]. }
  split.
  - intros Hlb. destruct Hlb as (i & e & e' & s & u & l1 & l2 & q & Hnx & H1 & H2 & H3). assert (Hlb : left_behind f j) by (exists i, e, e', s, u, l1, l2, q; auto).
    assert (Hi : (i < length (b_rec v))%nat). { rewrite (events_len HP EA). apply nth_error_Some. destruct H2 as (He & _). congruence. }
    exists Vision. split; auto. rewrite (@flat_map_one _ _ _ _ i).
    + apply (next_last HP EA _ Hi) in Hnx as (H0 & Hop & El'). rewrite El', Nat.eqb_refl. destruct (Hnew i Hi) as (c & E & Hc1 & _). unfold cs. rewrite E. apply Hc1; auto. now rewrite El'.
    + apply seq_NoDup.
    + apply in_seq. lia.
    + intros y Hy Hne'. apply in_seq in Hy. apply Hz; [lia|]. intros (Hny & _). apply Hne'. eapply next_unique; eauto.
  - intros Hno. apply flat_map_nil. intros y Hy. apply in_seq in Hy. apply Hz; [lia|]. tauto.
Qed.
Print Assumptions C70_vision_transfer.

(** One row; after the openings of columns 0 and 2 column 3 is known to be safe, and the player opens column 11. *)
Definition b112 : board := [[1; -1; 1; 1; -1; 1; 0; 0; 0; 0; 0; 0]].
Lemma b112_legal : legal_board 1 12 b112.
Proof.
  split; [split; [reflexivity|repeat constructor]|]. intros q Hq. apply (in_positions 1 12) in Hq. vm_compute in Hq.
  repeat destruct Hq as [<-|Hq]; try (now left); try (right; reflexivity); destruct Hq.
Qed.
Definition far_file : video := file_of b112 1 12 2 (left_at 0 0 0 ++ left_at 0 2 100 ++ left_at 0 11 200).
Lemma far_playable : playable far_file.
Proof. split; [split; [apply b112_legal|cbn; lia]|reflexivity]. Qed.
Example C70_case : playable far_file /\ left_behind far_file 3 /\ comments_of far_file [Vision_transfer] = Ok [[]; []; []; [Vision]; []; []].
Proof.
  split; [exact far_playable|]. split; [|vm_compute; reflexivity].
  assert (O3 : opens far_file 3). { eexists _, _, 2%nat. split; [|lia]. split; [reflexivity|split; [vm_compute; reflexivity|eexists; vm_compute; reflexivity]]. }
  assert (E4 : exists e s, event_at far_file 4 e s 0). { eexists _, _. split; [reflexivity|split; [vm_compute; reflexivity|eexists; vm_compute; reflexivity]]. }
  destruct E4 as (e4 & s4 & E4).
  exists 5%nat. eexists _, _, _, 2%nat, [(0, 3)%nat], [], (0, 3)%nat.
  assert (E5 : forall e s, event_at far_file 5 e s 2 -> opens far_file 5). { intros e s H. exists e, s, 2%nat. split; auto. }
  split; [split; [lia|split; [eapply E5; split; [reflexivity|split; [vm_compute; reflexivity|eexists; vm_compute; reflexivity]]|]]|].
  { split; [now right|]. intros k Hk (e & s & u & Hev & Hu). assert (k = 4%nat) by lia. subst k. destruct (event_unique E4 Hev) as (_ & _ & ->). lia. }
  split; [reflexivity|]. split; [split; [reflexivity|split; [vm_compute; reflexivity|eexists; vm_compute; reflexivity]]|]. split; [vm_compute; intros X; discriminate X|].
  split; [intros n; reflexivity|]. split; [intros n; reflexivity|]. split; [left; vm_compute; auto|vm_compute; lia].
Qed.
(** With no events at all three of the analyses crash. *)
Theorem C70_refuted_no_events : let f := file_of b22 2 2 2 [] in playable f /\ (exists v, analyse (of_file f [] 0) = Ok v) /\
  comments_of f [Vision_transfer] = Panic /\ comments_of f [Survive_poss] = Panic /\ comments_of f [Mouse_trace] = Panic.
Proof.
  split; [split; [split; [apply b22_legal|cbn; lia]|reflexivity]|]. split; [eexists; vm_compute; reflexivity|]. split; [vm_compute; reflexivity|]. split; vm_compute; reflexivity.
Qed.

(** ** C71 [survive_poss] *)
(** event [i] is a left release that took effect *)
Definition left_effect (f : video) (i : nat) : Prop := exists e s u, event_at f i e s u /\ ve_mouse e = e_lr /\ (1 <= u)%nat.
(** ... not the first such, at a cell that is a mine in some but not all arrangements *)
Definition lucky (f : video) (i : nat) : Prop :=
  (exists k, (k < i)%nat /\ left_effect f k) /\ exists e s u, event_at f i e s u /\ ve_mouse e = e_lr /\ (1 <= u)%nat /\
    (0 < worlds_hit f s (cell_at f e) < worlds f s)%nat.
(** [p] is the probability of a mine there *)
Definition risk_of (f : video) (i : nat) (p : frac) : Prop :=
  exists e s u, event_at f i e s u /\ is_prob p (worlds_hit f s (cell_at f e)) (worlds f s).

Theorem C71_survive_partial : forall f raw now v st,
  playable f -> v_events f <> [] -> right_mines f -> small_file f -> analyse (of_file f raw now) = Ok v -> analysed v st ->
  exists st' is ps, survive_poss v st = Ok st' /\ snd st' = removelast (snd st) ++ [[Luck ps]] /\
    StronglySorted lt is /\ (forall i, In i is <-> lucky f i) /\ Forall2 (risk_of f) is ps.
Proof.
  intros f raw now v st HP Hne [HM HM1] Hsm EA (fl & El). pose proof (proj1 HP) as HWF. destruct (analysed_fine El) as [Hg Hc]. destruct st as [gs cm]. cbn [fst snd] in *.
  assert (Hlen : (0 < length (b_rec v))%nat) by (rewrite (events_len HP EA); destruct (v_events f); [congruence|cbn; lia]).
  destruct (@survive_eq v gs cm Hg) as (gs' & _ & ->).
  assert (K : forall n, (n <= length (b_rec v))%nat -> exists ps b is, foldM (survive_step v) (seq 0 n) ([], false) = Ok (ps, b) /\
     (b = true <-> exists k, (k < n)%nat /\ left_effect f k) /\ StronglySorted lt is /\ (forall i, In i is <-> lucky f i /\ (i < n)%nat) /\ Forall2 (risk_of f) is ps).
  { induction n as [|n IH]; intros Hn.
    - exists [], false, []. split; auto. split; [split; [intros X; discriminate X|intros (k & Hk & _); lia]|]. split; [constructor|]. split; [|constructor]. intros i. split; [intros []|lia].
    - destruct (IH ltac:(lia)) as (ps & b & is & Ef & Hb & Hss & Hin & Hf2). rewrite seq_S, foldM_app, Ef. cbn [bind Nat.add foldM].
      destruct (event_rec HP EA (i := n) ltac:(lia)) as (r & e & s & u & Er & Er' & Hev & Han & Hu & Hmo & _ & _ & Hpl).
      assert (Hle : left_effect f n <-> ve_mouse e = e_lr /\ (1 <= u)%nat).
      { split; [intros (e' & s' & u' & Hev' & H1 & H2); destruct (event_unique Hev Hev') as (-> & -> & ->); auto|intros [H1 H2]; exists e, s, u; auto]. }
      assert (Hlow : forall i, lucky f i /\ (i < S n)%nat <-> lucky f i /\ (i < n)%nat \/ i = n /\ lucky f n).
      { intros i. split; [intros [H1 H2]; destruct (Nat.eq_dec i n) as [->|]; [auto|left; split; auto; lia]|intros [[H1 H2]|[-> H1]]; split; auto; lia]. }
      unfold survive_step. rewrite Er'. cbn [bind]. rewrite Hmo, Hu.
      destruct (event_eqb (ve_mouse e) e_lr && (1 <=? u)%nat) eqn:C.
      + apply andb_true_iff in C as [C1 C2]. apply event_eqb_iff in C1. apply Nat.leb_le in C2. assert (Hln : left_effect f n) by now apply Hle.
        assert (Ht : true = true <-> exists k, (k < S n)%nat /\ left_effect f k) by (split; auto; intros _; exists n; split; [lia|auto]).
        destruct b; cbn [negb bind].
        * rewrite Hpl. cbn [bind]. destruct (event_inb HP Hev C2) as (HL & G & Hinb & _). pose proof Hev as (_ & Hs & _).
          destruct (poss_at HWF EA HM HM1 Er Han HL (Hsm n s Hs) Hinb) as (p & -> & Hp). cbn [bind].
          pose proof (positive_iff Hp (worlds_pos HWF Hs)) as I1. pose proof (below_iff Hp (worlds_pos HWF Hs)) as I2.
          assert (Hlk : lucky f n <-> positive p && below_one p = true).
          { rewrite andb_true_iff, I1, I2. split.
            - intros (_ & e' & s' & u' & Hev' & _ & _ & H). destruct (event_unique Hev Hev') as (-> & -> & ->). lia.
            - intros [H1 H2]. split; [now apply Hb|]. exists e, s, u. split; auto. split; auto. split; auto. lia. }
          destruct (positive p && below_one p).
          -- exists (ps ++ [p]), true, (is ++ [n]). split; auto. split; auto. split; [|split].
             ++ clear - Hss Hin. assert (Hlt : Forall (fun i => i < n)%nat is) by (apply Forall_forall; intros i Hi; apply Hin in Hi; lia). clear Hin.
                induction Hss as [|i is Hss IH Hall]; cbn [app]; [repeat constructor|]. inversion Hlt; subst. constructor; auto. apply Forall_app. auto.
             ++ intros i. rewrite Hlow, in_app_iff, Hin. cbn [In]. split; [intros [H|[<-|[]]]; auto; right; split; auto; now apply Hlk|intros [H|[-> H]]; auto].
             ++ apply Forall2_app; auto. constructor; [|constructor]. exists e, s, u. auto.
          -- exists ps, true, is. split; auto. split; auto. split; auto. split; auto. intros i. rewrite Hlow, Hin. split; [auto|]. intros [H|[-> H]]; auto. apply Hlk in H. discriminate H.
        * exists ps, true, is. split; auto. split; auto. split; auto. split; auto. intros i. rewrite Hlow, Hin. split; [auto|]. intros [H|[-> (Hk & _)]]; auto. apply Hb in Hk. discriminate Hk.
      + assert (Hln : ~ left_effect f n). { intros X. apply Hle in X as [X1 X2]. rewrite X1 in C. apply Nat.leb_le in X2. rewrite X2 in C. discriminate C. }
        cbn [bind]. exists ps, b, is. split; auto. split; [|split; [auto|split; auto]].
        * rewrite Hb. split; intros (k & Hk & H); exists k; split; auto; try lia. destruct (Nat.eq_dec k n) as [->|]; [contradiction|lia].
        * intros i. rewrite Hlow, Hin. split; [auto|]. intros [H|[-> (_ & e' & s' & u' & H1 & H2 & H3 & _)]]; auto. exfalso. apply Hln. exists e', s', u'. auto. }
  destruct (K (length (b_rec v)) (le_n _)) as (ps & b & is & -> & _ & Hss & Hin & Hf2). cbn [bind].
  destruct cm as [|c cm]; [cbn in Hc; lia|]. eexists _, is, ps. split; [reflexivity|]. split; [reflexivity|]. split; auto. split; auto.
  intros i. rewrite Hin. split; [tauto|]. intros H. split; auto. destruct H as (_ & e & s & u & (He & _) & _). rewrite (events_len HP EA). apply nth_error_Some. congruence.
Qed.
Print Assumptions C71_survive_partial.
Definition guess_file : video := file_of b22 2 2 2 (left_at 0 0 0 ++ left_at 1 1 100).
Example C71_case : playable guess_file /\ right_mines guess_file /\ small_file guess_file /\ lucky guess_file 3 /\
  comments_of guess_file [Survive_poss] = Ok [[]; []; []; [Luck [(2, 3)%nat]]].
Proof.
  split; [split; [split; [apply b22_legal|cbn; lia]|reflexivity]|]. split; [split; [reflexivity|vm_compute; lia]|]. split; [apply few_small; vm_compute; lia|].
  split; [|vm_compute; reflexivity]. split.
  - exists 1%nat. split; [lia|]. eexists _, _, 2%nat. split; [split; [reflexivity|split; [vm_compute; reflexivity|eexists; vm_compute; reflexivity]]|]. split; [reflexivity|lia].
  - eexists _, _, 2%nat. split; [split; [reflexivity|split; [vm_compute; reflexivity|eexists; vm_compute; reflexivity]]|]. split; [reflexivity|]. split; [lia|]. vm_compute. lia.
Qed.
(** The order of the analyses matters, although the documentation says that it does not. *)
Theorem C71_refuted_order : playable guess_file /\ right_mines guess_file /\ small_file guess_file /\
  comments_of guess_file [Needless_guess; Survive_poss] = Ok [[]; []; []; [Luck [(2, 3)%nat]]] /\
  comments_of guess_file [Survive_poss; Needless_guess] = Ok [[]; []; []; [Luck [(2, 3)%nat]; Needless]].
Proof.
  split; [split; [split; [apply b22_legal|cbn; lia]|reflexivity]|]. split; [split; [reflexivity|vm_compute; lia]|]. split; [apply few_small; vm_compute; lia|].
  split; vm_compute; reflexivity.
Qed.
(** A guess made with a chord is not counted: the flags stand on two of three cells of which any two can be the mines; the chord
    opens the third and wins, and the list of risks is empty. *)
Definition chord_at (r c : nat) (t : Z) : list vev :=
  [VEv e_lc t (16 * Z.of_nat c) (16 * Z.of_nat r); VEv e_rc (t + 10) (16 * Z.of_nat c) (16 * Z.of_nat r);
   VEv e_lr (t + 20) (16 * Z.of_nat c) (16 * Z.of_nat r); VEv e_rr (t + 30) (16 * Z.of_nat c) (16 * Z.of_nat r)].
Definition chord_file : video := file_of b22 2 2 2 (left_at 0 0 0 ++ right_at 0 1 100 ++ right_at 1 0 200 ++ chord_at 0 0 300).
Theorem C71_refuted_chord_guess : playable chord_file /\ right_mines chord_file /\ small_file chord_file /\
  (exists e s, event_at chord_file 8 e s 3 /\ ve_mouse e = e_lr /\ cell (m_gb s) (1, 1)%nat = 10 /\ worlds chord_file s = 3%nat /\ worlds_hit chord_file s (1, 1)%nat = 2%nat /\
     exists s', game_after chord_file 9 = Ok s' /\ cell (m_gb s') (1, 1)%nat = 2 /\ m_state s' = Win) /\
  comments_of chord_file [Survive_poss] = Ok [[]; []; []; []; []; []; []; []; []; [Luck []]].
Proof.
  split; [split; [split; [apply b22_legal|cbn; lia]|reflexivity]|]. split; [split; [reflexivity|vm_compute; lia]|]. split; [apply few_small; vm_compute; lia|].
  split; [|vm_compute; reflexivity]. eexists _, _. split; [split; [reflexivity|split; [vm_compute; reflexivity|eexists; vm_compute; reflexivity]]|].
  split; [reflexivity|]. split; [reflexivity|]. split; [vm_compute; reflexivity|]. split; [vm_compute; reflexivity|]. eexists. split; [vm_compute; reflexivity|]. split; reflexivity.
Qed.
