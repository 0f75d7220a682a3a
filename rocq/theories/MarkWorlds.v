(** * MarkWorlds: the probabilities of [GameBoard] are those of the position set ([mark] and [get_poss] of
    board.rs; lemmas for C67-C69). *)
From Verif Require Import Base Spec BaseFacts LayMineProofs Matrix Solve SolverSpec LinFacts SolveProofs MatrixProofs TableProofs EnumProofs EnumBlock EnumSolve PosProofs
  MatrixMeaning PossSpec PossProofs PossSums Possibility GuessSpec Features PropsPoss PossBoard BoardCache StoreProofs SafeBoardProofs.
Open Scope nat_scope.

Section Same.
Variables (row column : nat).

Lemma NoDup_covered g : NoDup (covered_cells row column g).
Proof. apply NoDup_filter, NoDup_positions. Qed.
Lemma in_covered g q : In q (covered_cells row column g) <-> inb row column q /\ cell g q = 10%Z.
Proof. unfold covered_cells. rewrite filter_In, in_positions. unfold coveredb. now rewrite Z.eqb_eq. Qed.
Lemma sub_eq_filter (l s : list pos) : NoDup l -> In s (subs l) -> s = filter (fun q => mem_pos q s) l.
Proof.
  revert s. induction l as [|a l IH]; intros s Nd Hs.
  - destruct Hs as [<-|[]]. reflexivity.
  - inversion Nd as [|? ? Ha Nd']; subst. cbn [subs] in Hs. apply in_app_or in Hs as [Hs|Hs].
    + cbn [filter]. rewrite mem_false; [now apply IH|]. intros H. apply Ha. exact (subs_incl Hs H).
    + apply in_map_iff in Hs as (t & <- & Ht). cbn [filter]. rewrite mem_true by now left. f_equal. rewrite (IH t Nd' Ht) at 1.
      apply filter_ext_in. intros q Hq. apply eq_true_iff_eq. rewrite !mem_pos_true. split; [now right|]. intros [<-|H]; auto. contradiction.
Qed.
Lemma world_size g s : In s (subs (covered_cells row column g)) -> count (with_flags g s) (positions row column) = flag_count row column g + length s.
Proof.
  intros Hs. unfold flag_count.
  assert (E : length s = count (fun q => mem_pos q s) (positions row column)).
  { assert (Es := sub_eq_filter (NoDup_covered g) Hs). rewrite Es at 1. unfold covered_cells, count.
    assert (G : forall l, length (filter (fun q => mem_pos q s) (filter (coveredb g) l)) = length (filter (fun q => mem_pos q s) l)).
    { induction l as [|q l IH]; auto. cbn [filter]. destruct (coveredb g q) eqn:Ec; cbn [filter]; destruct (mem_pos_spec q s) as [Hq|Hq]; cbn [length]; auto.
      exfalso. apply (subs_incl Hs) in Hq. unfold covered_cells in Hq. apply filter_In in Hq as [_ Hq]. congruence. }
    apply G. }
  rewrite E, !count_b1. rewrite <- sumn_add. apply sumn_ext. intros q _. unfold with_flags, mines_at. destruct (flaggedb g q) eqn:Ef; cbn [orb b1]; [|reflexivity].
  rewrite mem_false; [reflexivity|]. intros Hq. apply (subs_incl Hs) in Hq. apply in_covered in Hq as [_ Hq]. unfold flaggedb in Ef. rewrite Hq in Ef. discriminate Ef.
Qed.

(** Two positions with the same explanations have the same worlds. *)
Lemma worlds_le g h M (Q : placement -> bool) : (forall m m', (forall q, inb row column q -> m q = m' q) -> Q m = Q m') ->
  (forall m, consistent row column g m -> consistent row column h m) ->
  count (fun s => worldb row column g M s && Q (with_flags g s)) (subs (covered_cells row column g)) <=
  count (fun s => worldb row column h M s && Q (with_flags h s)) (subs (covered_cells row column h)).
Proof.
  intros HQ Hc. set (phi := fun s => filter (with_flags g s) (covered_cells row column h)).
  assert (Hphi : forall s, In s (subs (covered_cells row column g)) -> worldb row column g M s = true ->
     forall q, inb row column q -> with_flags h (phi s) q = with_flags g s q).
  { intros s Hs Hw q Hq. unfold worldb in Hw. apply andb_true_iff in Hw as [He _]. apply (consistentb_iff row column g) in He. apply Hc in He.
    destruct (He q Hq) as (E1 & E2 & _). unfold with_flags at 1, mines_at. unfold flaggedb at 1. destruct (Z.eqb_spec (cell h q) 11) as [E|E]; cbn [orb]; [now rewrite E1|].
    destruct (Z.eq_dec (cell h q) 10) as [E'|E'].
    - apply eq_true_iff_eq. rewrite mem_pos_true. unfold phi. rewrite filter_In, in_covered. tauto.
    - rewrite (E2 E' E). apply mem_false. unfold phi. rewrite filter_In, in_covered. tauto. }
  unfold count. rewrite <- (map_length phi). apply NoDup_incl_length.
  - assert (Nd : NoDup (subs (covered_cells row column g))).
    { clear. pose proof (NoDup_covered g) as Nd. induction (covered_cells row column g) as [|a l IH]; [repeat constructor; intros []|]. inversion Nd as [|? ? Ha Nd']; subst.
      cbn [subs]. apply NoDup_app_disj; auto.
      - apply FinFun.Injective_map_NoDup; auto. intros x y E. congruence.
      - intros s H1 H2. apply in_map_iff in H2 as (t & <- & _). apply Ha. apply (subs_incl H1). now left. }
    set (F := filter _ (subs (covered_cells row column g))).
    assert (HF : forall s, In s F -> In s (subs (covered_cells row column g)) /\ worldb row column g M s = true).
    { intros s Hs. unfold F in Hs. apply filter_In in Hs as [H1 H2]. apply andb_true_iff in H2. tauto. }
    assert (NF : NoDup F) by (apply NoDup_filter; exact Nd). clearbody F. clear Nd. induction F as [|s F IH]; [constructor|]. inversion NF as [|? ? Hn NF']; subst. cbn [map]. constructor.
    + intros Hi. apply in_map_iff in Hi as (t & Et & Ht). apply Hn. destruct (HF s ltac:(now left)) as [S1 S2]. destruct (HF t ltac:(now right)) as [T1 T2].
      replace s with t; auto. rewrite (sub_eq_filter (NoDup_covered g) S1), (sub_eq_filter (NoDup_covered g) T1). apply filter_ext_in. intros q Hq.
      apply in_covered in Hq as [Hb Hq]. pose proof (Hphi s S1 S2 q Hb) as P1. pose proof (Hphi t T1 T2 q Hb) as P2. rewrite Et in P2. rewrite P2 in P1.
      unfold with_flags, flaggedb, mines_at in P1. rewrite Hq in P1. exact P1.
    + apply IH; auto. intros t Ht. apply HF. now right.
  - intros t Ht. apply in_map_iff in Ht as (s & <- & Hs). apply filter_In in Hs as [S1 S2]. apply andb_true_iff in S2 as [S2 S3]. specialize (Hphi s S1 S2).
    apply filter_In. assert (Ht : In (phi s) (subs (covered_cells row column h))) by apply filter_in_subs. split; auto. apply andb_true_iff. split.
    + unfold worldb in *. apply andb_true_iff in S2 as [S2 S4]. apply andb_true_iff. split.
      * unfold explains in *. apply (consistentb_iff row column h). apply (consistentb_iff row column g) in S2. apply Hc in S2. intros q Hq. specialize (S2 q Hq). rewrite (Hphi q Hq).
        rewrite (@adj_count_ext row column _ (with_flags g s) q) by exact Hphi. exact S2.
      * apply Nat.eqb_eq in S4. apply Nat.eqb_eq. rewrite <- (world_size Ht). rewrite <- (world_size S1) in S4. rewrite <- S4. apply count_ext. intros q Hq. apply in_positions in Hq. auto.
    + rewrite <- S3. apply HQ. exact Hphi.
Qed.
Theorem same_worlds g h M : (forall m, consistent row column g m <-> consistent row column h m) -> n_worlds row column g M = n_worlds row column h M.
Proof.
  intros H. assert (G : forall g, n_worlds row column g M = count (fun s => worldb row column g M s && (fun _ => true) (with_flags g s)) (subs (covered_cells row column g))).
  { intros g'. apply count_ext. intros s _. now rewrite andb_true_r. }
  rewrite (G g), (G h). apply Nat.le_antisymm; apply (@worlds_le _ _ M (fun _ => true)); auto; intros m; apply H.
Qed.
Theorem same_worlds_mine g h M q : inb row column q -> (forall m, consistent row column g m <-> consistent row column h m) -> n_worlds_mine row column g M q = n_worlds_mine row column h M q.
Proof.
  intros Hq H. apply Nat.le_antisymm; apply (@worlds_le _ _ M (fun m => m q)); auto; intros m; apply H.
Qed.
(** A consistent placement is a world. *)
Lemma world_of g m : consistent row column g m -> n_worlds row column g (count m (positions row column)) <> 0.
Proof.
  intros Hm. set (s := filter m (covered_cells row column g)).
  assert (Hs : In s (subs (covered_cells row column g))) by apply filter_in_subs.
  assert (Hw : forall q, inb row column q -> with_flags g s q = m q).
  { intros q Hq. destruct (Hm q Hq) as (E1 & E2 & _). unfold with_flags, flaggedb, mines_at. destruct (Z.eqb_spec (cell g q) 11) as [E|E]; cbn [orb]; [now rewrite E1|].
    destruct (Z.eq_dec (cell g q) 10) as [E'|E'].
    - apply eq_true_iff_eq. rewrite mem_pos_true. unfold s. rewrite filter_In, in_covered. tauto.
    - rewrite (E2 E' E). apply mem_false. unfold s. rewrite filter_In, in_covered. tauto. }
  unfold n_worlds, count at 1. intros E. assert (Hin : In s (filter (worldb row column g (count m (positions row column))) (subs (covered_cells row column g)))).
  { apply filter_In. split; auto. unfold worldb. apply andb_true_iff. split.
    - apply (consistentb_iff row column g). intros q Hq. specialize (Hm q Hq). rewrite (Hw q Hq). rewrite (@adj_count_ext row column _ m q) by exact Hw. exact Hm.
    - apply Nat.eqb_eq. rewrite <- (world_size Hs). apply count_ext. intros q Hq. apply in_positions in Hq. auto. }
  apply length_zero_iff_nil in E. rewrite E in Hin. destruct Hin.
Qed.
End Same.

(** ** [mark] *)
Open Scope Z_scope.
(** [h] is [g] where some covered cells are marked, correctly *)
Definition well_marked (row column : nat) (g h : board) : Prop :=
  rect row column h /\ forall q, inb row column q ->
    cell h q = cell g q \/
    (cell g q = 10 /\ (cell h q = 12 /\ determined row column g q false \/ cell h q = 11 /\ determined row column g q true)).
Lemma gb_mark_marks row column g n s : satisfiable row column (forget g) -> rect row column g ->
  gb_mark (set_game_board (gboard_new n) g) = Ok s -> gb_minenum s = n /\ well_marked row column (forget g) (gb_marked s).
Proof.
  intros Hs Hrg E. set (f := forget g) in *. unfold gb_mark, set_game_board in E. cbn [gb_is_marked gboard_new gb_marked gb_basic_not gb_basic_is gb_enum_is gb_board gb_minenum] in E.
  change (map (map (fun v => if 10 <? v then 10 else v)) g) with f in E.
  pose proof Hs as (Hr & H0 & m0 & Hm0). destruct (refresh_blocks Hr H0) as (bl0 & k1 & k2 & E0 & _). rewrite E0 in E. cbn [bind] in E.
  pose proof (ded_start E0) as D0. destruct (direct_call Hs D0) as (bl1 & n1 & i1 & bd1 & E1 & D1 & _). rewrite E1 in E. cbn [unwrap bind] in E.
  destruct (minus_call Hs D1) as (bl2 & n2 & i2 & bd2 & E2 & D2 & _). rewrite E2 in E. cbn [unwrap bind] in E.
  pose proof (deductions_inv Hr H0 Hm0 D2) as IH. cbn [app] in D2, IH. rewrite !app_nil_l in *.
  assert (Hfc : forall p, In p (n1 ++ n2) \/ In p (i1 ++ i2) -> front_cell row column f p).
  { intros p Hp. apply (di_cells IH). rewrite !in_app_iff in *. tauto. }
  pose proof (di_marks IH Hm0) as M0. pose proof (marks_marked_with M0) as (R2 & C11 & C12 & Coth).
  destruct (@set12_ok row column (n1 ++ n2) bd2) as (bd3 & E3 & R3 & C3); auto.
  { intros p Hp. split; [apply Hfc; auto|auto]. }
  rewrite E3 in E. cbn [bind] in E. rewrite (cells11_ok R3 H0) in E. cbn [bind] in E.
  apply bind_ok in E as ([n3 i3] & _ & E). injection E as <-. cbn [gb_minenum gb_marked]. split; [reflexivity|]. split; [exact R3|].
  intros q Hq. rewrite C3 by auto. destruct (in_dec pos_eq_dec q (n1 ++ n2)) as [Hn|Hn].
  - right. split; [apply Hfc; auto|]. left. split; [auto|]. intros m Hm. apply (mk_not (di_marks IH Hm)); auto.
  - destruct (in_dec pos_eq_dec q (i1 ++ i2)) as [Hi|Hi]; [|left; auto]. right. split; [apply Hfc; auto|]. right. split; [auto|]. intros m Hm. apply (mk_is (di_marks IH Hm)); auto.
Qed.
Lemma well_marked_consistent row column g h : (forall q, inb row column q -> cell g q <= 10) -> well_marked row column g h ->
  forall m, consistent row column g m <-> consistent row column h m.
Proof.
  intros Hv [_ Hm] m. split; intros H q Hq; destruct (H q Hq) as (H1 & H2 & H3); unfold number in *; destruct (Hm q Hq) as [E|(Eg & C)].
  - rewrite E. auto.
  - destruct C as [[E D]|[E D]]; rewrite E; (split; [intros X; first [discriminate X|now apply D]|]); (split; [intros X Y; first [now apply D|congruence]|]); intros [_ X]; exfalso; clear - X; lia.
  - rewrite E in H1, H2, H3. auto.
  - rewrite Eg. split; [intros X; discriminate X|]. split; [congruence|]. intros [_ X]. exfalso. clear - X. lia.
Qed.

(** ** [get_poss] *)
(** every position that arises from [g] by marking covered cells leads to small systems *)
Definition small_marked (row column : nat) (g : board) : Prop :=
  forall h, rect row column h -> (forall q, inb row column q -> cell h q = cell g q \/ cell g q = 10 /\ (cell h q = 11 \/ cell h q = 12)) -> small_blocks h.
Lemma front_le_small row column g : (0 < row)%nat -> front_le row column g 55 -> small_marked row column g.
Proof.
  intros H0 Hf h Hr Hm bl k1 k2 E. destruct (refresh_matrixs_partition Hr H0) as (bl' & k1' & k2' & ns & E' & _ & _ & _ & Nd & Hfr & _).
  rewrite E in E'. injection E' as <- _ _. apply Forall_forall. intros B HB. apply Hf.
  - clear - Nd HB. induction bl as [|B' bl IH]; [destruct HB|]. cbn [map concat] in Nd. destruct HB as [->|HB]; [now apply NoDup_app_l in Nd|]. apply IH; auto. now apply NoDup_app_r in Nd.
  - apply Forall_forall. intros q Hq. assert (Hi : front_cell row column h q). { apply Hfr. apply in_concat. exists (vars B). split; auto. now apply in_map. }
    destruct Hi as (Hb & Hc & p & Hp & Hn & Hnum). assert (Eq : cell g q = 10) by (destruct (Hm q Hb) as [X|[X _]]; congruence).
    split; auto. split; auto. exists p. split; auto. split; auto. unfold number in *. destruct (Hm p Hp) as [X|[X [Y|Y]]]; lia.
Qed.
Lemma forget_rect row column g : rect row column g -> rect row column (forget g).
Proof.
  intros [L F]. split; [unfold forget; now rewrite map_length|]. unfold forget. apply Forall_forall. intros x Hx. apply in_map_iff in Hx as (y & <- & Hy). rewrite map_length.
  rewrite Forall_forall in F. auto.
Qed.
Lemma forget_le row column g q : rect row column g -> inb row column q -> cell (forget g) q <= 10.
Proof. intros Hr Hq. rewrite (forget_cell Hr) by auto. destruct (Z.ltb_spec 10 (cell g q)); lia. Qed.

Theorem poss_ok row column g (m : placement) M : rect row column g -> (0 < row)%nat -> (forall q, inb row column q -> 0 <= cell g q) ->
  consistent row column (forget g) m -> count m (positions row column) = M -> (1 <= M)%nat -> small_marked row column (forget g) ->
  exists s P, gb_mark (set_game_board (gboard_new M) g) = Ok s /\ marked_state row column g s /\
    get_poss (PBoard (set_game_board (gboard_new M) g) None) = Ok (P, PBoard s (Some P)) /\ get_poss (PBoard s None) = Ok (P, PBoard s (Some P)) /\
    rect row column P /\
    forall i j, inb row column (i, j) -> exists f, get P i j = Ok f /\
      is_prob f (n_worlds_mine row column (forget g) M (i, j)) (n_worlds row column (forget g) M).
Proof.
  intros Hr H0 Hpos Hm HM H1 Hsmall. assert (Hsat : satisfiable row column (forget g)) by (split; [now apply forget_rect|]; split; [auto|]; now exists m).
  destruct (gb_mark_ok M Hsat Hr) as (s & Es & Hms). destruct (gb_mark_marks Hsat Hr Es) as [En Hw].
  assert (Hcons : forall m, consistent row column (forget g) m <-> consistent row column (gb_marked s) m).
  { apply well_marked_consistent; auto. intros q Hq. now apply (forget_le Hr). }
  pose proof Hw as [Hrm Hcells].
  assert (Hsat' : satisfiable row column (gb_marked s)) by (split; auto; split; auto; exists m; now apply Hcons).
  assert (Hpr : proper row column (gb_marked s)).
  { intros q Hq. destruct (Hcells q Hq) as [->|(_ & [[-> _]|[-> _]])]; try lia. rewrite (forget_cell Hr) by auto. specialize (Hpos q Hq). destruct (Z.ltb_spec 10 (cell g q)); lia. }
  assert (Hsb : small_blocks (gb_marked s)).
  { apply Hsmall; auto. intros q Hq. destruct (Hcells q Hq) as [->|(E & [[-> _]|[-> _]])]; auto. }
  assert (Hn : n_worlds row column (gb_marked s) M <> 0%nat) by (rewrite <- HM; apply world_of; now apply Hcons).
  destruct (@C33_onboard_partial row column (gb_marked s) M M Hsat' Hpr Hsb (le_n M) Hn) as (P & range & EP & HrP & HP).
  assert (Ea : mine_arg M = Count M) by (unfold mine_arg; destruct (Nat.eqb_spec M 0); [lia|reflexivity]).
  exists s, P. split; auto. split; auto. split; [|split; [|split]].
  - unfold get_poss. cbn [pb_poss pb_g]. rewrite Es. cbn [bind]. rewrite En, Ea, EP. reflexivity.
  - unfold get_poss. cbn [pb_poss pb_g]. unfold gb_mark. rewrite (ms_marked Hms). cbn [bind]. rewrite En, Ea, EP. reflexivity.
  - exact HrP.
  - intros i j Hq. destruct (HP i j Hq) as (f & E & Hf). exists f. split; auto. rewrite (same_worlds M Hcons), (same_worlds_mine M Hq Hcons). exact Hf.
Qed.
