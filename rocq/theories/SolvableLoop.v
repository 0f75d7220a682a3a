(** * SolvableLoop: [is_solvable] returns true only for boards that need no guess, and always for
    such boards if the fronts stay small. *)
From Verif Require Import Base Spec BaseFacts Metrics Refresh RefreshProofs Matrix Solve SolverSpec
  MatrixProofs LinFacts DirectProofs ChunkProofs SolveProofs CombineProofs TableProofs EnumProofs EnumBlock EnumSolve PosProofs Solvable SolvableSpec SolvableProofs.
Open Scope Z_scope.

Section S.
Variables (row column : nat) (b : board) (start : pos).
Hypothesis Hleg : legal_board row column b.
Hypothesis Hrow : (0 < row)%nat.
Hypothesis Hin : inb row column start.
Hypothesis Hsafe : is_mine b start = false.
Notation agrees := (agrees row column b).
Notation forced_safe := (forced_safe row column b).
Notation logical := (logical row column b start).
Let Hrect : rect row column b := proj1 Hleg.

Lemma legal_cells p : inb row column p -> -1 <= cell b p <= 8.
Proof. intros Hp. destruct (proj2 Hleg p Hp) as [->|E]; [lia|]. pose proof (adj_count_le row column (is_mine b) p). lia. Qed.
Lemma safe_cell p : inb row column p -> is_mine b p = false -> 0 <= cell b p <= 8.
Proof. intros Hp Hm. pose proof (legal_cells Hp). unfold is_mine in Hm. lia. Qed.

(** What the visible board [g] shows after the openings [known]. *)
Record state (g : board) (known : list pos) : Prop := {
  st_rect : rect row column g;
  st_log : logical known;
  st_open : forall p, In p known -> cell g p = cell b p;
  st_cov : forall p, inb row column p -> ~ In p known -> cell g p = 10 \/ cell g p = 11;
  st_flag : forall p, inb row column p -> cell g p = 11 -> forall m, agrees known m -> m p = true
}.
Lemma known_inb known : logical known -> forall p, In p known -> inb row column p.
Proof. intros H p Hp. pose proof (logical_inb Hin H) as F. rewrite Forall_forall in F. auto. Qed.
Lemma known_safe known : logical known -> forall p, In p known -> is_mine b p = false.
Proof. intros H p Hp. eapply logical_safe; eauto. Qed.
Lemma truth_known known : logical known -> agrees known (is_mine b).
Proof. intros H. apply truth_agrees; auto; [eapply logical_inb|apply known_safe]; eauto. Qed.
Lemma known_num g known p : state g known -> In p known -> 0 <= cell g p <= 8.
Proof.
  intros S Hp. rewrite (st_open S) by auto. apply safe_cell; [eapply known_inb|eapply known_safe]; eauto; apply S.
Qed.
Lemma state_consistent g known m : state g known -> (consistent row column g m <-> agrees known m).
Proof.
  intros S. split.
  - intros C q Hq. assert (Hi := known_inb (st_log S) Hq). pose proof (known_num S Hq). destruct (C q Hi) as (_ & C2 & C3).
    split; [apply C2; lia|]. rewrite <- (st_open S) by auto. apply C3. unfold number. lia.
  - intros A p Hp. destruct (mem_pos_spec p known) as [Hk|Hk].
    + pose proof (known_num S Hk). destruct (A p Hk) as [A1 A2]. split; [lia|]. split; [auto|]. intros _. now rewrite (st_open S).
    + destruct (st_cov S Hp Hk) as [E|E]; rewrite E.
      * split; [discriminate|]. split; [lia|]. unfold number. lia.
      * split; [intros _; eapply (st_flag S); eauto|]. split; [lia|]. unfold number. lia.
Qed.
Lemma state_sat g known : state g known -> satisfiable row column g.
Proof. intros S. split; [apply S|]. split; auto. exists (is_mine b). apply (state_consistent (is_mine b) S). apply truth_known, S. Qed.
Lemma state_forced g known p : state g known -> determined row column g p false -> forced_safe known p.
Proof. intros S D m A. apply D. now apply (state_consistent m S). Qed.
Lemma forced_state g known p : state g known -> forced_safe known p -> determined row column g p false.
Proof. intros S D m A. apply D. now apply (state_consistent m S). Qed.

(** opening the cells [n] *)
Lemma reach_logical bd n known : logical known -> (forall p, In p n -> inb row column p /\ forced_safe known p) ->
  forall p, opens row column b bd n p -> forall l, logical l -> incl known l ->
  exists l', logical l' /\ incl l l' /\ In p l' /\ forall q, In q l' -> In q l \/ opens row column b bd n q.
Proof.
  intros Hk Hn p Ho. induction Ho as [p Hp|p q Ho IH Hz Hq Ha Hg]; intros l Hl Hi.
  - exists (l ++ [p]). split; [apply logical_open; auto; [now apply Hn|eapply forced_incl; [exact Hi|now apply Hn]]|].
    split; [intros x Hx; apply in_or_app; auto|]. split; [apply in_or_app; right; now left|].
    intros x Hx. apply in_app_or in Hx as [Hx|[<-|[]]]; [auto|right; now constructor].
  - destruct (IH l Hl Hi) as (l' & H1 & H2 & H3 & H4). exists (l' ++ [q]). split.
    { apply logical_open; auto. intros m A. destruct (A p H3) as [_ E]. rewrite Hz in E.
      destruct (m q) eqn:Eq; auto. exfalso. assert (adj_count row column m p <> 0)%nat; [|lia].
      unfold adj_count, count. intros E0. apply length_zero_iff_nil in E0.
      assert (In q []) as []. rewrite <- E0. apply filter_In. split; [now apply in_positions|].
      destruct (adjb_spec p q); [now rewrite Eq|contradiction]. }
    split; [intros x Hx; apply in_or_app; left; auto|]. split; [apply in_or_app; right; now left|].
    intros x Hx. apply in_app_or in Hx as [Hx|[<-|[]]]; [destruct (H4 x Hx); auto|right; eapply opens_spread; eauto].
Qed.
Lemma reach_all bd n known ps : logical known -> (forall p, In p n -> inb row column p /\ forced_safe known p) ->
  (forall p, In p ps -> opens row column b bd n p) ->
  exists l', logical l' /\ incl known l' /\ incl ps l' /\ forall q, In q l' -> In q known \/ opens row column b bd n q.
Proof.
  intros Hk Hn. induction ps as [|p ps IH]; intros Hps.
  - exists known. split; auto. split; [apply incl_refl|]. split; [intros x []|auto].
  - destruct IH as (l & H1 & H2 & H3 & H4); [intros q Hq; apply Hps; now right|].
    destruct (reach_logical Hk Hn (Hps p (or_introl eq_refl)) H1 H2) as (l' & G1 & G2 & G3 & G4).
    exists l'. split; auto. split; [eapply incl_tran; eauto|]. split; [intros x [<-|Hx]; auto|].
    intros q Hq. destruct (G4 q Hq); auto.
Qed.

(** ** one round *)
(** [bd] is the position after the marks [n] (safe) and [i] (mines). *)
Definition cov (g : board) : nat := count (coveredb g) (positions row column).

Lemma open_state g known n i bd : state g known ->
  (forall p, In p n -> front_cell row column g p /\ determined row column g p false) ->
  (forall p, In p i -> front_cell row column g p /\ determined row column g p true) ->
  rect row column bd -> (forall p, In p i -> cell bd p = 11) ->
  (forall p, In p n -> cell bd p = 12 \/ cell bd p = 10) ->
  (forall p, inb row column p -> ~ In p i -> ~ In p n -> cell bd p = cell g p) ->
  exists g' known', refresh_board b bd n = Ok g' /\ state g' known' /\ incl known known' /\ incl n known' /\
    (cov g' <= cov g)%nat /\ (n <> [] \/ i <> [] -> (cov g' < cov g)%nat).
Proof.
  intros S Hn Hi Hbd Hci Hcn Hco.
  assert (Hn' : forall p, In p n -> inb row column p /\ forced_safe known p).
  { intros p Hp. destruct (Hn p Hp) as [[Hb _] D]. split; auto. eapply state_forced; eauto. }
  assert (Hkn : forall p, In p known -> ~ In p n /\ ~ In p i).
  { intros p Hp. pose proof (known_num S Hp). split; intros Hq; [apply Hn in Hq|apply Hi in Hq]; destruct Hq as [(_ & E & _) _]; lia. }
  assert (Hdis : forall p, In p n -> ~ In p i).
  { intros p Hp Hq. apply Hcn in Hp. apply Hci in Hq. lia. }
  assert (Hbk : forall p, In p known -> cell bd p = cell b p).
  { intros p Hp. destruct (Hkn p Hp). rewrite Hco; auto; [now apply (st_open S)|eapply known_inb; eauto; apply S]. }
  destruct (@refresh_board_ok row column b bd n Hrect Hbd Hrow) as (g' & E & Hr' & H1 & H2 & H3).
  { intros p Hp. pose proof (legal_cells Hp). lia. }
  { intros p Hp. now apply Hn'. }
  cbn zeta in H1, H2, H3. set (O := opens row column b bd n) in *.
  assert (HOi : forall p, O p -> inb row column p).
  { intros p Hp. destruct Hp as [p Hp|p q _ _ Hq _ _]; [now apply Hn'|auto]. }
  assert (HOk : forall p, O p -> ~ In p known).
  { intros p Hp Hk. destruct Hp as [p Hp|p q _ _ Hq _ Hc]; [exact (proj1 (Hkn p Hk) Hp)|]. rewrite Hbk in Hc by auto. pose proof (legal_cells Hq). lia. }
  assert (HOs : forall p, O p -> is_mine b p = false).
  { intros p Hp. destruct (reach_logical (st_log S) Hn' Hp (st_log S) (incl_refl _)) as (l' & L1 & _ & L3 & _). now apply (known_safe L1). }
  assert (HOg : forall p, O p -> cell g' p = cell b p /\ 0 <= cell b p <= 8).
  { intros p Hp. pose proof (safe_cell (HOi p Hp) (HOs p Hp)). split; auto. rewrite H1 by auto. unfold shown. destruct (Z.ltb_spec (cell b p) 0); auto; lia. }
  assert (H3' : forall q, inb row column q -> ~ O q -> cell g' q = cell bd q).
  { apply H3. intros p Hp. apply HOg in Hp. lia. }
  assert (HOd : forall p, inb row column p -> O p \/ ~ O p).
  { intros p Hp. apply opens_dec; auto; [intros q Hq; pose proof (legal_cells Hq); lia|intros q Hq; now apply Hn']. }
  assert (Hcl : forall p, inb row column p -> ~ In p known -> 9 < cell bd p).
  { intros p Hp Hk. destruct (mem_pos_spec p i) as [Hpi|Hpi]; [rewrite Hci by auto; lia|].
    destruct (mem_pos_spec p n) as [Hpn|Hpn]; [destruct (Hcn p Hpn); lia|]. rewrite Hco by auto. destruct (st_cov S Hp Hk); lia. }
  set (ps := filter (fun p => (cell g' p <? 10) && negb (mem_pos p known)) (positions row column)).
  (* a cell outside [known] that shows a number has been opened *)
  assert (Hdec : forall p, inb row column p -> cell g' p < 10 -> ~ In p known -> O p).
  { intros p Hp Hc Hk. destruct (HOd p Hp) as [Y|Y]; auto. exfalso. rewrite H3' in Hc by auto. pose proof (Hcl p Hp Hk). lia. }
  destruct (@reach_all bd n known ps (st_log S) Hn') as (l & L1 & L2 & L3 & L4).
  { intros p Hp. apply filter_In in Hp as [Hp1 Hp2]. apply in_positions in Hp1. apply andb_true_iff in Hp2 as [C1 C2].
    apply Hdec; auto; [now apply Z.ltb_lt|]. intros Hk. rewrite mem_true in C2 by auto. discriminate. }
  assert (HlO : forall p, O p -> In p l).
  { intros p Hp. destruct (mem_pos_spec p l) as [|N]; auto. exfalso. apply N. apply L3. apply filter_In. split; [now apply in_positions, HOi|].
    destruct (HOg p Hp) as [-> ?]. rewrite mem_false by (now apply HOk). cbn. lia. }
  assert (Hmono : forall p, inb row column p -> cell g' p = 10 -> cell g p = 10 /\ ~ In p n /\ ~ In p i).
  { intros p Hp Hc. destruct (HOd p Hp) as [Y|Y]; [apply HOg in Y; lia|]. rewrite H3' in Hc by auto.
    assert (~ In p n) by (intros Hpn; apply Y; now constructor). assert (~ In p i) by (intros Hpi; rewrite Hci in Hc by auto; lia).
    rewrite Hco in Hc by auto. auto. }
  exists g', l. split; [exact E|]. split; [constructor; auto|split; [auto|split; [|split]]].
  - intros p Hp. destruct (L4 p Hp) as [Hk|HO]; [|now apply HOg].
    rewrite H3'; [now apply Hbk|eapply known_inb; eauto; apply S|intros HO; now apply (HOk p HO)].
  - intros p Hp Hl. assert (Y : ~ O p) by (intros HO; auto). rewrite H3' by auto.
    assert (Hk : ~ In p known) by auto. assert (Hpn : ~ In p n) by (intros Hpn; apply Y; now constructor).
    destruct (mem_pos_spec p i) as [Hpi|Hpi]; [right; auto|]. rewrite Hco by auto. apply (st_cov S); auto.
  - intros p Hp Hc m A. assert (A' : agrees known m) by (eapply agrees_incl; [exact L2|exact A]).
    destruct (HOd p Hp) as [Y|Y]; [apply HOg in Y; lia|]. rewrite H3' in Hc by auto.
    destruct (mem_pos_spec p i) as [Hpi|Hpi]; [apply (Hi p Hpi); now apply (state_consistent m S)|].
    assert (Hpn : ~ In p n) by (intros Hpn; apply Y; now constructor). rewrite Hco in Hc by auto. eapply (st_flag S); eauto.
  - intros p Hp. apply HlO. now constructor.
  - unfold cov. apply count_sub; [apply NoDup_positions|apply NoDup_positions|]. intros p Hp Hc. split; auto. apply in_positions in Hp.
    unfold coveredb in *. apply Z.eqb_eq in Hc. apply Z.eqb_eq. now apply Hmono.
  - intros Hne. assert (exists p, front_cell row column g p /\ cell g' p <> 10) as (p & (Hp & Hc & _) & Hc').
    { destruct n as [|p n']. - destruct i as [|p i']; [tauto|]. exists p. split; [apply Hi; now left|]. intros Hc. apply Hmono in Hc as (_ & _ & Hc); [apply Hc; now left|apply Hi; now left].
      - exists p. split; [apply Hn; now left|]. intros Hc. apply Hmono in Hc as (_ & Hc & _); [apply Hc; now left|apply Hn; now left]. }
    unfold cov. apply in_positions in Hp. pose proof Hp as Hp'. apply in_split in Hp' as (l1 & l2 & El).
    assert (Hsub : forall l', incl l' (positions row column) -> (count (coveredb g') l' <= count (coveredb g) l')%nat).
    { clear - Hmono. induction l' as [|q l' IH]; intros Hi; [auto|]. rewrite !count_cons.
      assert (IH' : (count (coveredb g') l' <= count (coveredb g) l')%nat) by (apply IH; intros x Hx; apply Hi; now right).
      destruct (coveredb g' q) eqn:Eq; [|lia]. unfold coveredb in Eq. apply Z.eqb_eq in Eq. apply Hmono in Eq; [|apply in_positions, Hi; now left].
      unfold coveredb at 2. rewrite (proj1 Eq). cbn. lia. }
    rewrite El, !count_app, !count_cons. assert (C1 := Hsub l1). assert (C2 := Hsub l2).
    assert (Eg : coveredb g p = true) by (unfold coveredb; now rewrite Hc).
    assert (Eg' : coveredb g' p = false) by (unfold coveredb; now apply Z.eqb_neq). rewrite Eg, Eg'.
    rewrite El in C1, C2. specialize (C1 (incl_appl _ (incl_refl _))). specialize (C2 (incl_appr _ (incl_tl _ (incl_refl _)))). lia.
Qed.

(** ** victory *)
Lemma victory_ok g : rect row column g ->
  is_victory g b = Ok (negb (existsb (fun p => (cell g p =? 10) && negb (is_mine b p)) (positions row column))).
Proof.
  intros Hg. unfold is_victory. rewrite (ncolsR_ok Hg Hrow), (nrows_ok Hg). cbn [bind].
  rewrite (@findM_ok _ _ (fun p => (cell g p =? 10) && negb (is_mine b p))); [reflexivity|].
  intros [i j] Hp. apply in_grid in Hp. rewrite (get_ok Hg Hp). cbn [bind]. destruct (cell g (i, j) =? 10); [|reflexivity].
  rewrite (get_ok Hrect Hp). reflexivity.
Qed.
Lemma won_no_guess g known : state g known ->
  existsb (fun p => (cell g p =? 10) && negb (is_mine b p)) (positions row column) = false -> no_guess row column b start.
Proof.
  intros S H. exists known. split; [apply S|]. intros p Hp Hm. destruct (mem_pos_spec p known) as [|Hk]; auto. exfalso.
  destruct (st_cov S Hp Hk) as [E|E].
  - apply not_true_iff_false in H. apply H. apply existsb_exists. exists p. split; [now apply in_positions|]. now rewrite E, Hm.
  - pose proof (st_flag S Hp E (truth_known (st_log S))). congruence.
Qed.

(** ** a position without deductions *)
Lemma stuck g known : state g known ->
  (forall p, front_cell row column g p -> ~ determined row column g p false) ->
  (exists p, inb row column p /\ cell g p = 10 /\ is_mine b p = false) -> ~ no_guess row column b start.
Proof.
  intros S Hno (p0 & Hp0 & Hc0 & Hm0) (l & Hl & Hall).
  destruct (@logical_first row column b start (fun p => mem_pos p known) l Hl) as [H|(l' & p & Hl' & H1 & H2 & Hp & Hf)].
  - apply mem_true. eapply logical_start_in, S.
  - specialize (H p0 (Hall p0 Hp0 Hm0)). apply mem_pos_true in H. pose proof (known_num S H). lia.
  - assert (Hf' : forced_safe known p). { eapply forced_incl; [|exact Hf]. intros q Hq. apply mem_pos_true. auto. }
    assert (Hpk : ~ In p known) by (intros Hk; rewrite mem_true in H2 by auto; discriminate).
    assert (Hpm : is_mine b p = false) by (apply Hf', truth_known, S).
    assert (Hpc : cell g p = 10). { destruct (st_cov S Hp Hpk) as [E|E]; auto. pose proof (st_flag S Hp E (truth_known (st_log S))). congruence. }
    destruct (existsb (fun q => nearb q p && mem_pos q known) (positions row column)) eqn:Ex.
    + apply existsb_exists in Ex as (q & Hq & Hb). apply in_positions in Hq. apply andb_true_iff in Hb as [B1 B2]. apply mem_pos_true in B2.
      apply (Hno p); [|now apply forced_state with known]. split; auto. split; auto. exists q. split; auto. split; [now destruct (nearb_spec q p)|].
      pose proof (known_num S B2). unfold number. lia.
    + enough (true = false) by discriminate. rewrite <- (Hf' (flip [p] (is_mine b))); [unfold flip; rewrite mem_true, Hpm by (now left); reflexivity|].
      intros q Hq. assert (Hqi := known_inb (st_log S) Hq). assert (Hqp : q <> p) by (intros ->; auto).
      assert (Hnear : nearb q p = false).
      { apply not_true_iff_false. intros Hn. apply not_true_iff_false in Ex. apply Ex. apply existsb_exists. exists q. split; [now apply in_positions|]. now rewrite Hn, mem_true. }
      assert (Hadj : adjb q p = false) by (unfold adjb; rewrite Hnear; apply andb_false_r).
      split.
      * unfold flip. rewrite mem_false by (intros [->|[]]; auto). rewrite (known_safe (st_log S) Hq). reflexivity.
      * rewrite adj_count_flip; [now apply (truth_known (st_log S))|repeat constructor; auto|auto|].
        unfold count. cbn [filter]. rewrite Hadj. reflexivity.
Qed.
Lemma small_blocks g known bl bd N I : state g known -> small_fronts row column b start 55 -> deductions g bl bd N I ->
  Forall (fun B => length (vars B) <= ENUM_LIMIT)%nat bl.
Proof.
  intros S Hs D. destruct (state_sat S) as (_ & _ & m0 & Hm0). pose proof (deductions_inv (st_rect S) Hrow Hm0 D) as IH.
  apply Forall_forall. intros B HB. specialize (Hs known (st_log S)). etransitivity; [|exact Hs].
  unfold count. apply NoDup_incl_length.
  - pose proof (di_good IH) as G. rewrite Forall_forall in G. apply (gd_nodup (proj1 (G B HB))).
  - intros q Hq. assert (Hf : front_cell row column g q). { apply (di_cells IH). rewrite !in_app_iff. right. right. apply in_vars. eauto. }
    destruct Hf as (Hq1 & Hq2 & p & Hp & Hn & Hnum). apply filter_In. split; [now apply in_positions|].
    assert (Hqk : ~ In q known) by (intros Hk; pose proof (known_num S Hk); lia). change (existsb (posb q) known) with (mem_pos q known); rewrite mem_false by auto. cbn [negb andb].
    apply existsb_exists. exists p. split.
    + destruct (mem_pos_spec p known) as [|Hpk]; auto. destruct (st_cov S Hp Hpk); unfold number in Hnum; lia.
    + unfold adjb. destruct (nearb_spec p q); [|contradiction]. destruct (posb_spec p q) as [->|]; auto. unfold number in Hnum. lia.
Qed.

(** ** the loop *)
Lemma nil_both_spec n i : nil_both n i = true <-> n = [] /\ i = [].
Proof. destruct n, i; cbn; split; try discriminate; try tauto; intros [? ?]; discriminate. Qed.
Lemma set_all g l : rect row column g -> Forall (inb row column) l ->
  exists g', foldM (fun g '(o, p) => set g o p 11) l g = Ok g' /\ rect row column g' /\
    forall q, cell g' q = if mem_pos q l then 11 else cell g q.
Proof.
  intros Hg Hl. revert g Hg. induction Hl as [|[x y] l Hp Hl IH]; intros g Hg; cbn [foldM].
  - exists g. split; auto.
  - rewrite (set_ok _ Hg Hp). cbn [bind]. destruct (IH (upd g (x, y) 11)) as (g' & E & Hr & Hc); [now apply rect_upd|].
    exists g'. split; auto. split; auto. intros q. rewrite Hc.
    destruct (mem_pos_spec q l) as [Hq|Hq]; [rewrite mem_true by (now right); auto|].
    destruct (pos_eq_dec q (x, y)) as [->|Hn].
    + rewrite (cell_upd_eq _ Hg Hp), mem_true by (now left). auto.
    + rewrite cell_upd_neq by auto. rewrite mem_false; auto. intros [E'|Hq']; [now symmetry in E'|auto].
Qed.

Definition good_result (r : bool) : Prop :=
  (r = true -> no_guess row column b start) /\
  (r = false -> small_fronts row column b start 55 -> ~ no_guess row column b start).

Lemma loop_ok fuel : forall g known, state g known ->
  (exists p, inb row column p /\ cell g p = 10 /\ is_mine b p = false) -> (cov g < fuel)%nat ->
  exists r, solvable_loop fuel b g = Ok r /\ good_result r.
Proof.
  induction fuel as [|f IHf]; intros g known S Hex Hf; [lia|]. cbn [solvable_loop].
  assert (Hsat := state_sat S). destruct Hsat as (Hrg & _ & m0 & Hm0). pose proof (state_sat S) as Hsat.
  destruct (refresh_blocks (st_rect S) Hrow) as (bl & k1 & k2 & E & _). pose proof (@ded_start g bl k1 k2 E) as D0. rewrite E. cbn [bind].
  (* the rest of a round *)
  assert (K : forall n i bd,
    (forall p, In p n -> front_cell row column g p /\ determined row column g p false) ->
    (forall p, In p i -> front_cell row column g p /\ determined row column g p true) ->
    rect row column bd -> (forall p, In p i -> cell bd p = 11) ->
    (forall p, In p n -> cell bd p = 12 \/ cell bd p = 10) ->
    (forall p, inb row column p -> ~ In p i -> ~ In p n -> cell bd p = cell g p) ->
    nil_both n i = false ->
    exists r, (let* g := refresh_board b bd n in let* win := is_victory g b in if win : bool then Ok true else solvable_loop f b g) = Ok r /\ good_result r).
  { intros n i bd A1 A2 A3 A4 A5 A6 A7.
    destruct (open_state S A1 A2 A3 A4 A5 A6) as (g' & known' & E' & S' & _ & _ & _ & Hlt). rewrite E'. cbn [bind].
    rewrite (victory_ok (st_rect S')). cbn [bind].
    destruct (existsb (fun p => (cell g' p =? 10) && negb (is_mine b p)) (positions row column)) eqn:Ew; cbn [negb].
    - apply (IHf g' known' S').
      + apply existsb_exists in Ew as (p & Hp & Hb). apply in_positions in Hp. apply andb_true_iff in Hb as [B1 B2]. exists p. split; auto. split; [now apply Z.eqb_eq|]. now destruct (is_mine b p).
      + assert (n <> [] \/ i <> []); [|specialize (Hlt H); lia].
        destruct n as [|x n]; [|left; discriminate]. destruct i as [|x i]; [discriminate|right; discriminate].
    - exists true. split; auto. split; [intros _; eapply won_no_guess; eauto|discriminate]. }
  assert (Kc : forall bl bd N I p, deductions g bl bd N I -> In p N \/ In p I -> front_cell row column g p).
  { intros bl1 bd N I p D Hp. pose proof (deductions_inv (st_rect S) Hrow Hm0 D) as IH. apply (di_cells IH). rewrite !in_app_iff. tauto. }
  destruct (direct_call Hsat D0) as (bl1 & n1 & i1 & bd1 & E1 & D1 & A1 & B1 & (M1 & M2 & M3 & M4)). rewrite E1. cbn [unwrap bind]. cbn [app] in D1.
  destruct (nil_both n1 i1) eqn:N1.
  2:{ cbn [bind]. apply K with i1; auto; intros p Hp; (split; [eapply (Kc _ _ _ _ _ D1); auto|auto]). }
  apply nil_both_spec in N1 as [-> ->].
  destruct (minus_call Hsat D1) as (bl2 & n2 & i2 & bd2 & E2 & D2 & A2 & B2 & (P1 & P2 & P3 & P4)). rewrite E2. cbn [unwrap bind]. cbn [app] in D2.
  assert (G1 : forall p, cell bd1 p = cell g p) by (intros p; apply M4; intros []).
  destruct (nil_both n2 i2) eqn:N2.
  2:{ cbn [bind]. apply K with i2; auto; try (intros p Hp; (split; [eapply (Kc _ _ _ _ _ D2); auto|auto])). intros p Hp C1 C2. rewrite P4, G1; auto. }
  apply nil_both_spec in N2 as [-> ->].
  assert (G2 : forall p, cell bd2 p = cell g p) by (intros p; rewrite P4 by (intros []); auto).
  destruct (enumerate_call Hsat D2) as (n3 & i3 & E3 & A3 & B3 & C3). rewrite E3. cbn [bind].
  destruct (nil_both n3 i3) eqn:N3.
  - cbn [bind]. apply nil_both_spec in N3 as [-> ->]. exists false. split; auto. split; [discriminate|]. intros _ Hs.
    destruct (C3 (small_blocks S Hs D2)) as [C4 _]. eapply stuck; eauto. intros p Hp Hd. cbn [app] in C4. apply (proj2 (C4 p)). auto.
  - destruct (@set_all bd2 i3 P1) as (bd3 & E4 & R3 & Q3); [apply Forall_forall; intros p Hp; now apply B3|]. rewrite E4. cbn [bind].
    apply K with i3; auto.
    + intros p Hp. rewrite Q3, mem_true; auto.
    + intros p Hp. right. rewrite Q3, mem_false; [rewrite G2; now apply A3|]. intros Hp'. apply A3 in Hp as [_ Hp]. apply B3 in Hp' as [_ Hp']. specialize (Hp m0 Hm0). specialize (Hp' m0 Hm0). congruence.
    + intros p Hp H1 H2. rewrite Q3, mem_false by auto. auto.
Qed.

(** ** the first opening *)
Lemma first_state : exists g known, refresh_board b (mkboard row column 10) [start] = Ok g /\ state g known.
Proof.
  set (g0 := mkboard row column 10).
  assert (Hr0 : rect row column g0) by apply rect_mkboard.
  assert (H9 : forall p, inb row column p -> cell b p < 10) by (intros p Hp; pose proof (legal_cells Hp); lia).
  assert (Hcl : forall p, In p [start] -> inb row column p) by (intros p [<-|[]]; auto).
  assert (Hn' : forall p, In p [start] -> inb row column p /\ forced_safe [start] p).
  { intros p Hp. split; [now apply Hcl|]. intros m A. now apply A. }
  destruct (@refresh_board_ok row column b g0 [start] Hrect Hr0 Hrow H9 Hcl) as (g' & E & Hr' & H1 & H2 & H3).
  cbn zeta in H1, H2, H3. pose proof (@opens_dec row column b g0 [start] Hrect Hr0 H9 Hcl) as HOd. set (O := opens row column b g0 [start]) in *.
  assert (HOi : forall p, O p -> inb row column p).
  { intros p Hp. destruct Hp as [p Hp|p q _ _ Hq _ _]; auto. }
  assert (L0 : logical [start]) by constructor.
  assert (HOs : forall p, O p -> is_mine b p = false).
  { intros p Hp. destruct (reach_logical L0 Hn' Hp L0 (incl_refl _)) as (l' & L1 & _ & L3 & _). now apply (known_safe L1). }
  assert (HOg : forall p, O p -> cell g' p = cell b p /\ 0 <= cell b p <= 8).
  { intros p Hp. pose proof (safe_cell (HOi p Hp) (HOs p Hp)). split; auto. rewrite H1 by auto. unfold shown. destruct (Z.ltb_spec (cell b p) 0); auto; lia. }
  assert (H3' : forall q, inb row column q -> ~ O q -> cell g' q = 10).
  { intros q Hq Ho. rewrite H3; auto; [now apply cell_mkboard|]. intros p Hp. apply HOg in Hp. lia. }
  set (ps := filter (fun p => cell g' p <? 10) (positions row column)).
  destruct (@reach_all g0 [start] [start] ps L0 Hn') as (l & L1 & L2 & L3 & L4).
  { intros p Hp. apply filter_In in Hp as [Hp1 Hp2]. apply in_positions in Hp1. destruct (HOd p Hp1) as [Y|Y]; auto. rewrite H3' in Hp2 by auto. discriminate. }
  assert (HlO : forall p, In p l -> O p).
  { intros p Hp. destruct (L4 p Hp) as [Hs|]; auto. now constructor. }
  exists g', l. split; auto. constructor; auto.
  - intros p Hp. now apply HOg, HlO.
  - intros p Hp Hl. left. apply H3'; auto. intros Ho. apply Hl, L3. apply filter_In. split; [now apply in_positions|]. destruct (HOg p Ho). lia.
  - intros p Hp Hc. exfalso. destruct (HOd p Hp) as [Y|Y]; [apply HOg in Y; lia|]. rewrite H3' in Hc by auto. discriminate.
Qed.
End S.
