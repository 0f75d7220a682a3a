(** * BlocksProofs: [refresh_matrixses] regroups the blocks of [refresh_matrixs]. *)
From Verif Require Import Base Spec BaseFacts Matrix Solve SolverSpec MatrixProofs LinFacts DirectProofs
  ChunkProofs SolveProofs EnumProofs EnumSolve PosProofs Blocks.
Open Scope Z_scope.

Section G.
Variables (row column : nat) (g : board).
Hypothesis Hrect : rect row column g.
Hypothesis Hrow : (0 < row)%nat.
Hypothesis Hpos : forall p, inb row column p -> 0 <= cell g p.

(** ** regions *)
Definition shade (mark : board) : Prop :=
  rect row column mark /\
  forall q, inb row column q -> cell mark q = cell g q \/ (cell g q = 10 /\ cell mark q = 21).
Definition open_near (q : pos) : Prop := exists n, inb row column n /\ near q n /\ cell g n < 10.
Definition covered_in (q : pos) : Prop := inb row column q /\ cell g q = 10.
Definition c10 (mark : board) : nat := count (fun q => cell mark q =? 10) (positions row column).

Lemma shade_start : shade g. Proof. split; auto. Qed.
Lemma shade_set mark q : shade mark -> inb row column q -> cell mark q = 10 ->
  shade (upd mark q 21) /\ cell g q = 10 /\ (c10 (upd mark q 21%Z) + 1 = c10 mark)%nat.
Proof.
  intros [Hr Hs] Hq Hc. assert (Hg : cell g q = 10) by (destruct (Hs q Hq) as [E|[E _]]; congruence).
  split; [split; [now apply rect_upd|]|split; auto].
  - intros p Hp. rewrite (cell_upd p 21 Hr Hq). destruct (pos_eq_dec q p) as [<-|Hn].
    + right. rewrite posb_refl. auto.
    + rewrite posb_neq by auto. now apply Hs.
  - unfold c10.
    pose proof (@count_point _ pos_eq_dec (fun p => cell mark p =? 10) (fun p => cell (upd mark q 21) p =? 10) (positions row column) q) as H.
    cbn beta in H. rewrite (cell_upd_eq _ Hr Hq), Hc in H. cbn [Z.eqb] in H. change (10 =? 10) with true in H. change (21 =? 10) with false in H. cbn [Nat.add] in H.
    rewrite Nat.add_0_r in H. symmetry. apply H; [apply NoDup_positions|now apply in_positions|].
    intros x Hx. now rewrite cell_upd_neq by auto.
Qed.

Lemma flood_ok fuel : forall mark buffer acc, shade mark -> Forall covered_in buffer ->
  Forall (fun q => covered_in q /\ open_near q) acc -> (c10 mark + length buffer <= fuel)%nat ->
  exists mark' acc', flood fuel row column mark buffer acc = Ok (mark', acc') /\ shade mark' /\
    Forall (fun q => covered_in q /\ open_near q) acc'.
Proof.
  induction fuel as [|fuel IH]; intros mark [|[ti tj] buffer] acc Hs Hb Ha Hf; cbn [flood length] in *; try lia; eauto.
  inversion Hb as [|x l [Hti Hc] Hb']; subst.
  match goal with |- context [foldM ?F ?l ?s] =>
    destruct (@foldM_inv _ _ F (fun _ st => let '(mark', buffer', side) := st in shade mark' /\ Forall covered_in buffer' /\
       (c10 mark' + length buffer' <= fuel)%nat /\ (side = true -> open_near (ti, tj))) l s) as ([[m' b'] side] & E & H1 & H2 & H3 & H4) end.
  - split; [exact Hs|]. split; [exact Hb'|]. split; [lia|discriminate].
  - intros done [m n] rest [[mk bu] sd] El (H1 & H2 & H3 & H4).
    assert (Hz : In (m, n) (zone row column ti tj)) by (rewrite El; apply in_app_iff; right; now left).
    apply in_zone in Hz as [Hin Hnear]. rewrite (get_ok (proj1 H1) Hin). cbn [bind].
    destruct (Z.eqb_spec (cell mk (m, n)) 10) as [E|E].
    + rewrite (set_ok _ (proj1 H1) Hin). cbn [bind]. eexists. split; [reflexivity|]. destruct (shade_set H1 Hin E) as (G1 & G2 & G3).
      split; auto. split; [constructor; auto; split; auto|]. split; auto. cbn [length]. lia.
    + eexists. split; [reflexivity|]. split; auto. split; auto. split; auto.
      destruct (Z.ltb_spec (cell mk (m, n)) 10) as [L|L]; auto. intros _. exists (m, n). split; auto. split; auto.
      destruct (proj2 H1 (m, n) Hin) as [G|[G1 G2]]; [congruence|lia].
  - rewrite E. cbn [bind]. destruct (IH m' b' (if side then acc ++ [(ti, tj)] else acc)) as (mark' & acc' & E' & G); auto; [|eauto].
    destruct side; auto. apply Forall_app. split; auto. constructor; auto. split; [split; auto|auto].
Qed.
Lemma regions_ok : exists cells, regions g row column = Ok cells /\
  Forall (fun reg => reg <> [] /\ Forall (fun q => covered_in q /\ open_near q) reg) cells.
Proof.
  unfold regions.
  match goal with |- context [foldM ?F ?l ?s] =>
    destruct (@foldM_inv _ _ F (fun _ st => shade (fst st) /\
       Forall (fun reg => reg <> [] /\ Forall (fun q => covered_in q /\ open_near q) reg) (snd st)) l s) as ([m' cells] & E & H1 & H2) end.
  - split; [apply shade_start|constructor].
  - intros done [i j] rest [mk cells] El [H1 H2]. cbn [fst snd] in *.
    assert (Hz : In (i, j) (grid row column)) by (rewrite El; apply in_app_iff; right; now left).
    apply in_grid in Hz. rewrite (get_ok (proj1 H1) Hz). cbn [bind].
    destruct (Z.eqb_spec (cell mk (i, j)) 10) as [Ec|Ec]; [|eexists; split; [reflexivity|auto]].
    rewrite (set_ok _ (proj1 H1) Hz). cbn [bind]. destruct (shade_set H1 Hz Ec) as (G1 & G2 & G3).
    destruct (@flood_ok (row * column) (upd mk (i, j) 21) [(i, j)] []) as (m2 & acc & E & F1 & F2); auto.
    + constructor; auto. split; auto.
    + cbn [length]. pose proof (count_le (fun q => cell mk q =? 10) (positions row column)) as L. rewrite length_positions in L. unfold c10 in *. lia.
    + rewrite E. cbn [bind]. eexists. split; [reflexivity|]. cbn [fst snd]. split; auto. destruct acc as [|a acc]; auto.
      apply Forall_app. split; auto. constructor; auto. split; [discriminate|auto].
  - rewrite E. cbn [bind]. eauto.
Qed.

End G.

(** ** the adjacency matrix *)
Lemma which_block_some bl p : In p (concat (map vars bl)) ->
  exists t, which_block bl p = Some t /\ (t < length bl)%nat /\ In p (vars (nth t bl (Blk [] []))).
Proof.
  induction bl as [|B bl IH]; cbn [map concat which_block length]; [intros []|]. intros H.
  destruct (mem_pos_spec p (vars B)) as [Hp|Hp].
  - exists 0%nat. split; auto. split; [lia|]. exact Hp.
  - apply in_app_iff in H as [H|H]; [contradiction|]. destruct (IH H) as (t & E & Hl & Hin). exists (S t). rewrite E. split; auto. split; [cbn; lia|exact Hin].
Qed.
Definition loose (n : nat) (adj : list (list bool)) : Prop :=
  rect n n adj /\ forall t, (t < n)%nat -> gcell false adj (t, t) = false.
Lemma chain_ok bl fuel : forall adj seed todo, loose (length bl) adj ->
  (forall s, seed = Some s -> (s < length bl)%nat /\ forall q, In q todo -> ~ In q (vars (nth s bl (Blk [] [])))) ->
  (forall q, In q todo -> In q (concat (map vars bl))) -> (length todo <= fuel)%nat ->
  exists adj', chain fuel bl adj seed todo = Ok adj' /\ loose (length bl) adj'.
Proof.
  induction fuel as [|fuel IH]; intros adj seed [|q todo] Hl Hs Ht Hf; cbn [chain length] in *; try lia; eauto.
  destruct (@which_block_some bl q) as (t & E & Hlt & Hin); [apply Ht; now left|]. rewrite E. rewrite (vget_ok (Blk [] []) Hlt).
  assert (G : exists adj1, match seed with Some s => let* adj0 := set adj s t true in set adj0 t s true | None => Ok adj end = Ok adj1 /\ loose (length bl) adj1).
  { destruct seed as [s|]; [|eauto]. destruct (Hs s eq_refl) as [Hsl Hns]. destruct Hl as [Hr Hd].
    assert (Hne : s <> t) by (intros ->; apply (Hns q); [now left|exact Hin]).
    assert (I1 : inb (length bl) (length bl) (s, t)) by (split; auto). assert (I2 : inb (length bl) (length bl) (t, s)) by (split; auto).
    rewrite (set_ok _ Hr I1). cbn [bind]. assert (R1 : rect (length bl) (length bl) (upd adj (s, t) true)) by now apply rect_upd. rewrite (set_ok _ R1 I2). eexists. split; [reflexivity|]. split; [now apply rect_upd|].
    intros k Hk. rewrite !gcell_upd_neq; auto; intros E1; injection E1 as -> E1; congruence. }
  destruct G as (adj1 & E1 & L1). rewrite E1. cbn [bind]. apply IH; auto.
  - intros s Es. injection Es as <-. split; auto. intros p Hp. apply filter_In in Hp as [_ Hp]. intros Hv. apply mem_pos_true in Hv. now rewrite Hv in Hp.
  - intros p Hp. apply filter_In in Hp as [Hp _]. apply Ht. now right.
  - etransitivity; [|apply Nat.lt_succ_r; exact Hf]. clear. induction todo as [|a l IH]; cbn; [lia|]. destruct (negb _); cbn; lia.
Qed.

(** ** grouping *)
Definition liveb (B : block) : bool := match eqs B with [] => false | _ => true end.
Definition live (bl : list block) : list block := filter liveb bl.
Lemma live_app a b : live (a ++ b) = live a ++ live b. Proof. apply filter_app. Qed.
Lemma live_upd bl t : (t < length bl)%nat -> Permutation (live (upd_nth bl t (Blk [] [])) ++ live [nth t bl (Blk [] [])]) (live bl).
Proof.
  revert t; induction bl as [|B bl IH]; intros [|t] H; cbn [length] in H; try lia; cbn [upd_nth nth].
  - unfold live. cbn [filter]. change (liveb (Blk [] [])) with false. cbn [filter]. destruct (liveb B); cbn [app].
    + rewrite Permutation_app_comm. reflexivity.
    + now rewrite app_nil_r.
  - specialize (IH t ltac:(lia)). unfold live in *. cbn [filter] in *. destruct (liveb B); cbn [app]; auto.
Qed.
Definition from (bl0 : list block) (B : block) : Prop := In B bl0 \/ B = Blk [] [].
(** [bl'] comes from [bl] by emptying blocks *)
Definition emptied (bl bl' : list block) : Prop :=
  length bl' = length bl /\ forall t, nth t bl' (Blk [] []) = nth t bl (Blk [] []) \/ nth t bl' (Blk [] []) = Blk [] [].
Lemma emptied_trans a b c : emptied a b -> emptied b c -> emptied a c.
Proof. intros [L1 H1] [L2 H2]. split; [congruence|]. intros t. destruct (H2 t) as [E|E]; rewrite E; auto. Qed.
Lemma emptied_upd bl t : emptied bl (upd_nth bl t (Blk [] [])).
Proof.
  split; [apply length_upd_nth|]. intros k. destruct (Nat.eq_dec t k) as [<-|Hn].
  - destruct (Nat.lt_ge_cases t (length bl)); [right; now apply nth_upd_nth_eq|left]. rewrite !nth_overflow; auto. now rewrite length_upd_nth.
  - left. now apply nth_upd_nth_neq.
Qed.
Lemma emptied_from bl bl' t : emptied bl bl' -> from bl (nth t bl' (Blk [] [])).
Proof.
  intros [_ H]. destruct (H t) as [E0|E0]; rewrite E0; [|now right]. destruct (Nat.lt_ge_cases t (length bl)); [left; now apply nth_In|right]. now apply nth_overflow.
Qed.
Lemma visit_ok n adj : loose n adj -> forall fuel t st, length (fst st) = n -> (t < n)%nat -> (n - t <= fuel)%nat ->
  exists st' more, visit fuel adj n st t = Ok st' /\ emptied (fst st) (fst st') /\ snd st' = snd st ++ nth t (fst st) (Blk [] []) :: more /\
    Forall (from (fst st)) more /\
    Permutation (live (fst st') ++ live (nth t (fst st) (Blk [] []) :: more)) (live (fst st)) /\
    nth t (fst st') (Blk [] []) = Blk [] [].
Proof.
  intros [Hr Hd]. induction fuel as [|fuel IH]; intros t [bl grp] Hn Ht Hf; cbn [fst snd] in *; [lia|]. cbn [visit].
  cbn [fst snd]. rewrite (vget_ok (Blk [] [])) by lia. rewrite vset_ok by lia. cbn [bind].
  match goal with |- context [foldM ?F (rng t n) []] =>
    destruct (@foldM_inv _ _ F (fun _ l => Forall (fun j => (t < j < n)%nat) l) (rng t n) []) as (later & E & Hlat) end.
  { constructor. }
  { intros done j rest l El Hl. assert (Hj : In j (rng t n)) by (rewrite El; apply in_app_iff; right; now left). apply in_rng in Hj.
    assert (Hin : inb n n (t, j)) by (split; cbn; lia). rewrite (get_gok false Hr Hin). cbn [bind]. eexists. split; [reflexivity|].
    destruct (gcell false adj (t, j)) eqn:Eg; auto. constructor; auto. split; [|lia]. destruct (Nat.eq_dec t j) as [<-|]; [|lia]. rewrite Hd in Eg by auto. discriminate. }
  rewrite E. cbn [bind].
  match goal with |- context [foldM ?F later ?s] =>
    destruct (@foldM_inv _ _ F (fun _ st => exists more, emptied (upd_nth bl t (Blk [] [])) (fst st) /\ snd st = grp ++ nth t bl (Blk [] []) :: more /\
      Forall (from bl) more /\ Permutation (live (fst st) ++ live more) (live (upd_nth bl t (Blk [] [])))) later s) as (st' & E' & more & H1 & H2 & H3 & H4) end.
  { exists []. cbn [fst snd]. split; [split; auto|]. split; [reflexivity|]. split; [constructor|]. cbn. now rewrite app_nil_r. }
  { intros done j rest st El (more & H1 & H2 & H3 & H4).
    assert (Hj : (t < j < n)%nat) by (rewrite Forall_forall in Hlat; apply Hlat; rewrite El; apply in_app_iff; right; now left).
    assert (Hl : length (fst st) = n) by (destruct H1 as [L _]; rewrite L, length_upd_nth; exact Hn).
    destruct (IH j st Hl) as (st' & more' & Ev & G1 & G2 & G3 & G4 & _); [lia|lia|]. exists st'. split; auto.
    exists (more ++ nth j (fst st) (Blk [] []) :: more'). split; [eapply emptied_trans; eauto|].
    assert (Em : emptied bl (fst st)) by (eapply emptied_trans; [apply emptied_upd|exact H1]).
    assert (Hfrom : forall B, from (fst st) B -> from bl B).
    { intros B [HB|HB]; [|now right]. apply (In_nth _ _ (Blk [] [])) in HB as (k & _ & <-). now apply emptied_from. }
    split; [rewrite G2, H2, <- app_assoc; reflexivity|]. split.
    - apply Forall_app. split; auto. constructor; [now apply emptied_from|]. eapply Forall_impl; [|exact G3]. exact Hfrom.
    - rewrite live_app. rewrite <- H4, <- G4. rewrite <- !app_assoc. apply Permutation_app_head. apply Permutation_app_comm. }
  exists st', more. split; [exact E'|]. cbn [fst snd]. split; [eapply emptied_trans; [apply emptied_upd|exact H1]|]. split; [exact H2|]. split; [exact H3|]. split.
  - change (nth t bl (Blk [] []) :: more) with ([nth t bl (Blk [] [])] ++ more). rewrite live_app.
    assert (Htl : (t < length bl)%nat) by lia. rewrite <- (live_upd Htl). rewrite <- H4. rewrite <- !app_assoc. apply Permutation_app_head. apply Permutation_app_comm.
  - destruct H1 as [_ H1]. destruct (H1 t) as [E0|E0]; rewrite E0; auto. apply nth_upd_nth_eq. lia.
Qed.
Lemma group_blocks_ok bl adj : loose (length bl) adj ->
  exists ses, group_blocks bl adj = Ok ses /\ Permutation (live (concat ses)) (live bl) /\
    Forall (fun grp => Forall (from bl) grp /\ exists B rest, grp = B :: rest /\ In B bl /\ eqs B <> []) ses.
Proof.
  intros Hl. unfold group_blocks.
  match goal with |- context [foldM ?F ?l ?s] =>
    destruct (@foldM_inv _ _ F (fun done st => emptied bl (fst st) /\ Permutation (live (fst st) ++ live (concat (snd st))) (live bl) /\
      Forall (fun grp => Forall (from bl) grp /\ exists B rest, grp = B :: rest /\ In B bl /\ eqs B <> []) (snd st) /\
      forall t, In t done -> eqs (nth t (fst st) (Blk [] [])) = []) l s) as ([bl' ses] & E & H1 & H2 & H3 & H4) end.
  - cbn [fst snd concat]. split; [split; auto|]. split; [unfold live; cbn; now rewrite app_nil_r|]. split; [constructor|intros t []].
  - intros done i rest [bl' ses] El (H1 & H2 & H3 & H4). cbn [fst snd] in *.
    assert (Hi : (i < length bl)%nat) by (assert (In i (seq 0 (length bl))) by (rewrite El; apply in_app_iff; right; now left); apply in_seq in H; lia).
    assert (Hlen : length bl' = length bl) by apply H1.
    rewrite (vget_ok (Blk [] [])) by lia. cbn [bind]. destruct (eqs (nth i bl' (Blk [] []))) as [|e es] eqn:Ee.
    + eexists. split; [reflexivity|]. cbn [fst snd]. split; auto. split; auto. split; auto. intros t Ht. apply in_app_iff in Ht as [Ht|[<-|[]]]; auto.
    + destruct (@visit_ok (length bl) adj Hl (length bl) i (bl', [])) as ([bl2 grp] & more & Ev & G1 & G2 & G3 & G4 & G5); cbn [fst snd] in *; auto; [lia|].
      rewrite Ev. cbn [bind]. eexists. split; [reflexivity|]. cbn [fst snd]. subst grp. split; [eapply emptied_trans; eauto|].
      assert (Hfrom : forall B, from bl' B -> from bl B).
      { intros B [HB|HB]; [|now right]. apply (In_nth _ _ (Blk [] [])) in HB as (k & _ & <-). now apply emptied_from. }
      assert (Hlive : nth i bl' (Blk [] []) <> Blk [] []) by (intros E0; rewrite E0 in Ee; discriminate).
      split; [|split].
      * rewrite concat_app, live_app. cbn [concat app]. rewrite app_nil_r. rewrite <- H2, <- G4. rewrite <- !app_assoc. apply Permutation_app_head. apply Permutation_app_comm.
      * apply Forall_app. split; auto. constructor; auto. cbn [app]. split.
        -- constructor; [now apply emptied_from|]. eapply Forall_impl; [|exact G3]. exact Hfrom.
        -- exists (nth i bl' (Blk [] [])), more. split; auto. split; [destruct (emptied_from i H1) as [H|H]; [exact H|contradiction]|]. rewrite Ee. discriminate.
      * intros t Ht. apply in_app_iff in Ht as [Ht|[<-|[]]]; [|now rewrite G5]. destruct G1 as [_ G1]. destruct (G1 t) as [E0|E0]; rewrite E0; auto.
  - rewrite E. cbn [bind]. exists ses. split; auto. cbn [fst snd] in *. split; auto.
    assert (Hz : live bl' = []).
    { destruct (live bl') as [|B l] eqn:El; auto. exfalso. assert (HB : In B (live bl')) by (rewrite El; now left).
      apply filter_In in HB as [HB Hb]. apply (In_nth _ _ (Blk [] [])) in HB as (k & Hk & <-). unfold liveb in Hb.
      rewrite H4 in Hb; [discriminate|]. apply in_seq. destruct H1 as [L _]. lia. }
    rewrite Hz in H2. exact H2.
Qed.

(** ** the result *)
Section R.
Variables (row column : nat) (g : board).
Hypothesis Hrect : rect row column g.
Hypothesis Hrow : (0 < row)%nat.
Hypothesis Hpos : forall p, inb row column p -> 0 <= cell g p.

Theorem refresh_matrixses_ok : exists bl k1 k2 ses,
  refresh_matrixs g = Ok (bl, k1, k2) /\ refresh_matrixses g = Ok ses /\
  Forall good_block bl /\ Forall (pre_block row column) bl /\ NoDup (concat (map vars bl)) /\
  (forall q, In q (concat (map vars bl)) <-> front_cell row column g q) /\
  (forall v, sats v bl <-> forall n, front_number row column g n -> number_ok row column g v n) /\
  Permutation (live (concat ses)) bl /\
  Forall (fun grp => Forall (from bl) grp /\ exists B rest, grp = B :: rest /\ In B bl) ses.
Proof.
  destruct (refresh_blocks Hrect Hrow) as (bl & k1 & k2 & E & Hg & Hp & Nd & Hc & Hs). exists bl, k1, k2.
  assert (Hlive : live bl = bl).
  { clear -Hg. induction Hg as [|B bl [_ HB] Hg IH]; auto. unfold live, liveb in *. cbn [filter]. destruct (eqs B); [contradiction|]. now rewrite IH. }
  unfold refresh_matrixses. rewrite (nrows_ok Hrect), (ncolsR_ok Hrect Hrow), E. cbn [bind].
  edestruct (@regions_ok row column g) as (cells & Er & Hcells); auto.
  assert (Hfront : forall reg q, In reg cells -> In q reg -> In q (concat (map vars bl))).
  { intros reg q Hreg Hq. rewrite Forall_forall in Hcells. destruct (Hcells reg Hreg) as [_ Hr]. rewrite Forall_forall in Hr.
    destruct (Hr q Hq) as [[H1 H2] (n & H3 & H4 & H5)]. apply Hc. split; auto. split; auto. exists n. split; auto. split; [now apply near_sym|]. split; auto. }
  assert (One : bl <> [] -> Permutation (live (concat [bl])) bl /\ Forall (fun grp => Forall (from bl) grp /\ exists B rest, grp = B :: rest /\ In B bl) [bl]).
  { intros Hne. cbn [concat]. rewrite app_nil_r, Hlive. split; auto. constructor; auto. split; [apply Forall_forall; intros B HB; now left|].
    destruct bl as [|B rest]; [contradiction|]. exists B, rest. split; auto. now left. }
  destruct (Nat.eqb_spec (length bl) 1) as [E1|E1].
  { exists [bl]. split; auto. split; auto. split; auto. split; auto. split; auto. split; auto. split; auto. apply One. intros ->. discriminate. }
  rewrite Er. cbn [bind]. destruct (Nat.eqb_spec (length cells) 1) as [E2|E2].
  { exists [bl]. split; auto. split; auto. split; auto. split; auto. split; auto. split; auto. split; auto. apply One. intros ->.
    destruct cells as [|reg cells]; [discriminate|]. inversion Hcells as [|x l [Hn _] _]; subst. destruct reg as [|q reg]; [contradiction|]. apply (Hfront (q :: reg) q); now left. }
  assert (Hl0 : loose (length bl) (mkboard (length bl) (length bl) false)).
  { split; [apply rect_mkboard|]. intros t Ht. apply gcell_mkboard. split; auto. }
  match goal with |- context [foldM ?F cells ?s] =>
    destruct (@foldM_inv _ _ F (fun _ adj => loose (length bl) adj) cells s) as (adj & Ea & La) end.
  { exact Hl0. }
  { intros done reg rest adj El La. assert (Hreg : In reg cells) by (rewrite El; apply in_app_iff; right; now left).
    destruct (@chain_ok bl (length reg) adj None (rev reg) La) as (adj' & Ec & L'); eauto.
    - discriminate.
    - intros q Hq. apply in_rev in Hq. eauto.
    - now rewrite rev_length. }
  rewrite Ea. cbn [bind]. destruct (group_blocks_ok La) as (ses & Es & Ps & Fs). exists ses. split; auto. split; auto. split; auto. split; auto. split; auto. split; auto. split; auto.
  split; [now rewrite Hlive in Ps|]. eapply Forall_impl; [|exact Fs]. intros grp [F1 (B & rest & E3 & HB & _)]. split; eauto.
Qed.
Lemma sat_empty v : sat v (Blk [] []). Proof. constructor. Qed.
Lemma sats_live v bl : sats v (live bl) <-> sats v bl.
Proof.
  unfold sats, live. induction bl as [|B bl IH]; [reflexivity|]. cbn [filter]. unfold liveb at 1. destruct (eqs B) as [|e es] eqn:E.
  - rewrite IH. split; intros H; [constructor; auto; unfold sat; rewrite E; constructor|now inversion H].
  - split; intros H; inversion H; subst; constructor; auto; now apply IH.
Qed.
End R.

(** ** the engines on any group of blocks that has a solution *)
Theorem engines_ok row column v0 bl bd : Forall (pre_block row column) bl -> NoDup (concat (map vars bl)) -> rect row column bd -> sats v0 bl ->
  exists bl1 n1 i1 bd1 bl2 n2 i2 bd2 n3 i3,
    solve_direct bl bd = Ok (bl1, n1, i1, bd1) /\ solve_minus bl1 bd1 = Ok (bl2, n2, i2, bd2) /\ solve_enumerate bl2 = Ok (n3, i3) /\
    deduced bl n1 i1 bl1 /\ deduced bl1 n2 i2 bl2 /\
    marks row column v0 n1 i1 bd bd1 /\ marks row column v0 n2 i2 bd1 bd2 /\
    (forall p, In p n3 -> In p (concat (map vars bl2)) /\ forall v, sats v bl2 -> v p = false) /\
    (forall p, In p i3 -> In p (concat (map vars bl2)) /\ forall v, sats v bl2 -> v p = true) /\
    ((length (concat (map vars bl)) <= ENUM_LIMIT)%nat -> forall p, In p (n1 ++ n2 ++ n3) <-> In p (concat (map vars bl)) /\ forall v, sats v bl -> v p = false).
Proof.
  intros Hp Nd Hbd Hs.
  destruct (solve_direct_call Hp Hbd Hs) as (bl1 & n1 & i1 & bd1 & E1 & D1 & M1 & G1 & P1).
  assert (Hs1 : sats v0 bl1) by (apply (dd_sat D1); auto).
  destruct (solve_minus_call P1 (mk_rect M1) Hs1) as (bl2 & n2 & i2 & bd2 & E2 & D2 & M2 & G2 & P2).
  assert (Hs2 : sats v0 bl2) by (apply (dd_sat D2); auto).
  assert (Perm : Permutation (concat (map vars bl)) ((n1 ++ n2) ++ (i1 ++ i2) ++ concat (map vars bl2))).
  { rewrite (dd_perm D1), (dd_perm D2). permut. }
  assert (Nd2 : NoDup (concat (map vars bl2))) by (eapply Permutation_NoDup in Nd; [|exact Perm]; now apply NoDup_app_r, NoDup_app_r in Nd).
  destruct (existsb (fun B => (ENUM_LIMIT <? length (vars B))%nat) bl2) eqn:El.
  - exists bl1, n1, i1, bd1, bl2, n2, i2, bd2, [], []. split; auto. split; auto. split; [unfold solve_enumerate; now rewrite El|].
    split; auto. split; auto. split; auto. split; auto. split; [intros p []|]. split; [intros p []|]. intros Hlim. exfalso.
    apply existsb_exists in El as (B & HB & Hb). apply Nat.ltb_lt in Hb. apply Permutation_length in Perm. rewrite !app_length in Perm.
    assert (length (vars B) <= length (concat (map vars bl2)))%nat; [|lia]. clear -HB. induction bl2 as [|B' bl2 IH]; [destruct HB|]. cbn [map concat]. rewrite app_length. destruct HB as [->|HB]; [lia|]. specialize (IH HB). lia.
  - assert (Hl : Forall (fun B => (length (vars B) <= ENUM_LIMIT)%nat) bl2).
    { apply Forall_forall. intros B HB. destruct (Nat.le_gt_cases (length (vars B)) ENUM_LIMIT); auto. rewrite <- not_true_iff_false in El. exfalso. apply El. apply existsb_exists. exists B. split; auto. now apply Nat.ltb_lt. }
    destruct (solve_enumerate_ok G2 Nd2 Hs2 Hl) as (n3 & i3 & E3 & Hn & Hi).
    exists bl1, n1, i1, bd1, bl2, n2, i2, bd2, n3, i3. split; auto. split; auto. split; auto. split; auto. split; auto. split; auto. split; auto.
    split; [intros p Hp3; now apply Hn|]. split.
    { intros p Hp3. apply Hi in Hp3 as (B & HB & Hv & _ & H). split; auto. apply in_vars. eauto. }
    intros _ p.
    assert (Sat : forall v, sats v bl <-> (forall q, In q (i1 ++ i2) -> v q = true) /\ (forall q, In q (n1 ++ n2) -> v q = false) /\ sats v bl2).
    { intros v. rewrite (dd_sat D1), (dd_sat D2). split.
      - intros (A1 & A2 & A3 & A4 & A5). split; [|split]; auto; intros q Hq; apply in_app_iff in Hq as [|]; auto.
      - intros (A1 & A2 & A3). split; [|split; [|split; [|split]]]; auto; intros q Hq; (apply A1 || apply A2); apply in_app_iff; auto. }
    assert (Hdis : forall q, In q (concat (map vars bl2)) -> ~ In q (n1 ++ n2) /\ ~ In q (i1 ++ i2)).
    { intros q Hq. eapply Permutation_NoDup in Nd; [|exact Perm]. split; intros Hq'.
      - apply (@NoDup_app_not_in _ _ _ q Nd Hq'). apply in_app_iff. auto.
      - apply NoDup_app_r in Nd. apply (@NoDup_app_not_in _ _ _ q Nd Hq'). auto. }
    rewrite app_assoc, in_app_iff. split.
    + intros [H|H].
      * split; [eapply Permutation_in; [symmetry; exact Perm|]; apply in_app_iff; auto|]. intros v Hv. apply Sat in Hv as (_ & A & _). auto.
      * apply Hn in H as [H1 H2]. split; [eapply Permutation_in; [symmetry; exact Perm|]; rewrite !in_app_iff; auto|]. intros v Hv. apply Sat in Hv as (_ & _ & A). auto.
    + intros [H1 H2]. eapply Permutation_in in H1; [|exact Perm]. apply in_app_iff in H1 as [H1|H1]; auto. apply in_app_iff in H1 as [H1|H1].
      * exfalso. specialize (H2 v0 Hs). apply Sat in Hs as (A & _). rewrite (A p H1) in H2. discriminate.
      * right. apply Hn. split; auto. intros v Hv.
        set (w := fun q => if mem_pos q (i1 ++ i2) then true else if mem_pos q (n1 ++ n2) then false else v q).
        destruct (Hdis p H1) as [Q1 Q2].
        assert (Ew : w p = v p) by (unfold w; now rewrite !mem_false). rewrite <- Ew. apply H2. apply Sat. split; [|split].
        -- intros q Hq. unfold w. now rewrite mem_true.
        -- intros q Hq. unfold w. rewrite (@mem_true q (n1 ++ n2)) by auto. rewrite mem_false; auto. intros Hq'.
           eapply Permutation_NoDup in Nd; [|exact Perm]. apply (@NoDup_app_not_in _ _ _ q Nd Hq). apply in_app_iff. auto.
        -- unfold sats in *. rewrite Forall_forall in *. intros B HB. apply (@sat_ext_in v); auto. intros q Hq.
           destruct (Hdis q) as [A1 A2]; [apply in_vars; eauto|]. unfold w. now rewrite !mem_false.
Qed.
