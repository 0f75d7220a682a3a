(** * Proofs about Metrics. *)
From Verif Require Import Base Spec BaseFacts LayMineProofs Metrics.
Open Scope Z_scope.

(** zero cells of a board *)
Notation zero := zero_cell.
Definition nzeros (row column : nat) (b : board) : nat :=
  count (fun p => cell b p =? 0) (positions row column).

(** [b'] arises from [b] by turning into 1 some zero cells connected to [s] *)
Definition infected (row column : nat) (s : pos) (b b' : board) : Prop :=
  rect row column b' /\
  forall q, inb row column q ->
    cell b' q = cell b q \/
    (cell b q = 0 /\ cell b' q = 1 /\ connected (zero row column b) s q).

Lemma nzeros_le row column b b' :
  (forall q, inb row column q -> cell b' q = 0 -> cell b q = 0) ->
  (nzeros row column b' <= nzeros row column b)%nat.
Proof.
  intros H. apply count_mono. intros x Hx. apply in_positions in Hx.
  rewrite !Z.eqb_eq. auto.
Qed.
Lemma nzeros_upd row column b p v :
  rect row column b -> inb row column p -> cell b p = 0 -> v <> 0 ->
  (S (nzeros row column (upd b p v)) = nzeros row column b)%nat.
Proof.
  intros Hr Hp Hz Hv. unfold nzeros.
  pose proof (@count_point _ pos_eq_dec (fun q => cell (upd b p v) q =? 0) (fun q => cell b q =? 0)
    (positions row column) p (NoDup_positions _ _) (proj2 (in_positions _ _ _) Hp)) as H.
  cbv beta in H. rewrite Hz, (cell_upd_eq v Hr Hp) in H.
  destruct (Z.eqb_spec v 0); [congruence|]. simpl in H. rewrite Nat.add_0_r, Nat.add_1_r in H.
  apply H. intros q Hq. rewrite cell_upd_neq; auto.
Qed.

Lemma infect_ok row column f : forall b x y,
  rect row column b -> inb row column (x, y) -> cell b (x, y) = 0 ->
  (nzeros row column b <= f)%nat ->
  exists b', infect_board f row column b x y = Ok b' /\
    infected row column (x, y) b b' /\ cell b' (x, y) = 1 /\
    forall q, inb row column q -> cell b q = 0 -> cell b' q = 1 ->
      forall r, inb row column r -> near q r -> cell b' r <> 0.
Proof.
  induction f as [|f IH]; intros b x y Hr Hin Hz Hf.
  - exfalso. assert (H0 : nzeros row column b = 0%nat) by lia.
    pose proof (count_zero_inv H0 (proj2 (in_positions _ _ _) Hin)) as H. cbv beta in H.
    rewrite Hz in H. discriminate.
  - cbn [infect_board]. rewrite (set_ok _ Hr Hin). cbn [bind].
    pose proof (rect_upd (x, y) 1 Hr) as Hr1.
    pose proof (@nzeros_upd row column b (x, y) 1 Hr Hin Hz ltac:(lia)) as Hn1.
    set (b1 := upd b (x, y) 1) in *.
    assert (Hinf1 : infected row column (x, y) b b1).
    { split; [exact Hr1|]. intros q Hq. unfold b1. rewrite (cell_upd _ _ Hr Hin).
      destruct (posb_spec (x, y) q) as [<-|Hn]; auto.
      right. repeat split; auto. constructor. split; auto. }
    destruct (@foldM_inv board pos
      (fun b '(i, j) => let* v := get b i j in if v =? 0 then infect_board f row column b i j else Ok b)
      (fun done s => infected row column (x, y) b s /\ cell s (x, y) = 1 /\
         (forall q, inb row column q -> cell s q = 0 -> cell b1 q = 0) /\
         (forall q, inb row column q -> cell b q = 0 -> cell s q = 1 -> q <> (x, y) ->
            forall r, inb row column r -> near q r -> cell s r <> 0) /\
         (forall r, In r done -> cell s r <> 0))
      (zone row column x y) b1) as (b' & E & HP).
    + split; [exact Hinf1|]. split; [apply (cell_upd_eq 1 Hr Hin)|]. split; [auto|]. split.
      * intros q Hq Hq0 Hq1 Hne. exfalso. unfold b1 in Hq1. rewrite cell_upd_neq in Hq1 by auto. lia.
      * intros r [].
    + intros done [i j] rest s Hl (HI & Hs1 & Hmono & Hcl & Hdone).
      assert (Hij : inb row column (i, j) /\ near (x, y) (i, j)).
      { apply in_zone. rewrite Hl. apply in_or_app; right; left; auto. }
      destruct Hij as [Hij Hnear]. destruct HI as [Hrs HI].
      rewrite (get_ok Hrs Hij). cbn [bind]. destruct (Z.eqb_spec (cell s (i, j)) 0) as [Es|Es].
      * (* recursive call *)
        destruct (IH s i j Hrs Hij Es) as (s' & E' & [Hrs' HI'] & Hs'1 & Hcl').
        { pose proof (@nzeros_le row column b1 s Hmono). lia. }
        exists s'. split; [exact E'|].
        assert (Hbz : cell b (i, j) = 0).
        { destruct (HI _ Hij) as [H|H]; [congruence|tauto]. }
        assert (Hsz : forall p, zero row column s p -> zero row column b p).
        { intros p [Hp Hp0]. split; auto. destruct (HI p Hp) as [H|H]; [congruence|tauto]. }
        assert (Hcon : forall q, connected (zero row column s) (i, j) q -> connected (zero row column b) (x, y) q).
        { intros q Hq. eapply connected_trans; [|eapply connected_mono; [exact Hsz|exact Hq]].
          apply connected_one; auto. split; auto. split; auto. }
        split; [|split; [|split; [|split]]].
        -- split; [exact Hrs'|]. intros q Hq. destruct (HI' q Hq) as [H1|(H1 & H2 & H3)].
           ++ rewrite H1. apply HI; auto.
           ++ right. destruct (HI q Hq) as [H4|H4]; [|lia].
              split; [congruence|]. split; auto.
        -- destruct (HI' _ Hin) as [H|H]; [congruence|lia].
        -- intros q Hq Hq0. apply Hmono; auto. destruct (HI' q Hq) as [H|H]; [congruence|lia].
        -- intros q Hq Hq0 Hq1 Hne r Hrb Hqr.
           destruct (Z.eq_dec (cell s q) 0) as [Hsq|Hsq].
           ++ apply (Hcl' q); auto.
           ++ assert (Hsq1 : cell s q = 1) by (destruct (HI' q Hq) as [H|H]; [congruence|lia]).
              pose proof (Hcl q Hq Hq0 Hsq1 Hne r Hrb Hqr).
              destruct (HI' r Hrb) as [H'|H']; [congruence|lia].
        -- intros r Hrd. apply in_app_or in Hrd as [Hrd|[<-|[]]]; [|lia].
           pose proof (Hdone r Hrd).
           assert (Hrb : inb row column r).
           { apply (@in_zone row column x y). rewrite Hl. apply in_or_app; auto. }
           destruct (HI' r Hrb) as [H'|H']; [congruence|lia].
      * exists s. split; [reflexivity|].
        split; [split; [exact Hrs|exact HI]|]. split; [exact Hs1|]. split; [exact Hmono|]. split; [exact Hcl|].
        intros r Hrd. apply in_app_or in Hrd as [Hrd|[<-|[]]]; auto.
    + exists b'. split; [exact E|]. destruct HP as (HI & H1 & _ & Hcl & Hdone).
      split; [exact HI|]. split; [exact H1|].
      intros q Hq Hq0 Hq1 r Hrb Hqr. destruct (pos_eq_dec q (x, y)) as [->|Hne].
      * apply Hdone. apply in_zone; auto.
      * apply (Hcl q); auto.
Qed.

(** exact effect *)
Lemma infect_exact row column f b x y :
  rect row column b -> inb row column (x, y) -> cell b (x, y) = 0 ->
  (nzeros row column b <= f)%nat ->
  exists b', infect_board f row column b x y = Ok b' /\ rect row column b' /\
    forall q, inb row column q ->
      (connected (zero row column b) (x, y) q -> cell b' q = 1) /\
      (~ connected (zero row column b) (x, y) q -> cell b' q = cell b q) /\
      (cell b q = 0 -> cell b' q = 1 -> connected (zero row column b) (x, y) q).
Proof.
  intros Hr Hin Hz Hf. destruct (infect_ok Hr Hin Hz Hf) as (b' & E & [Hr' HI] & H1 & Hcl).
  exists b'. split; [exact E|]. split; [exact Hr'|]. intros q Hq. split; [|split].
  - intros Hc. clear Hq. remember (x, y) as s eqn:Es. induction Hc as [p Hp|p q r Hpq IHc Hn Hrz].
    + now subst p.
    + specialize (IHc Es Hin Hz HI H1). destruct Hrz as [Hrb Hr0].
      pose proof (connected_r Hpq) as [Hqb Hq0].
      pose proof (Hcl q Hqb Hq0 IHc r Hrb Hn). destruct (HI r Hrb) as [H'|H']; [congruence|lia].
  - intros Hnc. destruct (HI q Hq) as [H|(_ & _ & H)]; [auto|contradiction].
  - intros H0 Hq1. destruct (HI q Hq) as [H|(_ & _ & H)]; [lia|exact H].
Qed.

(** number of zero components *)
Lemma connected_dec row column (b : board) : rect row column b ->
  forall p q, inb row column p -> inb row column q ->
  connected (zero row column b) p q \/ ~ connected (zero row column b) p q.
Proof.
  intros Hr p q Hp Hq. destruct (Z.eq_dec (cell b p) 0) as [Hz|Hz].
  - destruct p as [x y].
    destruct (@infect_exact row column _ b x y Hr Hp Hz (le_n _)) as (b' & _ & _ & H).
    destruct (Z.eq_dec (cell b q) 0) as [Hqz|Hqz].
    + destruct (H q Hq) as (H1 & H2 & H3). destruct (Z.eq_dec (cell b' q) 1) as [E1|E1]; auto.
    + right. intros Hc. apply connected_r in Hc as [_ ?]. contradiction.
  - right. intros Hc. apply connected_l in Hc as [_ ?]. contradiction.
Qed.

Lemma cal_op_ok row column b :
  rect row column b -> (0 < row)%nat ->
  exists n, cal_op b = Ok n /\ components (zero row column b) n.
Proof.
  intros Hr Hrow. unfold cal_op, get_row, get_column.
  rewrite (ncolsR_ok Hr Hrow), (nrows_ok Hr). cbn [bind].
  change (grid row column) with (positions row column).
  set (Z0 := zero row column b).
  match goal with |- context [foldM ?f _ _] =>
  destruct (@foldM_inv (board * nat) pos f
    (fun done '(s, op) => rect row column s /\
       exists reps, length reps = op /\ NoDup reps /\ Forall Z0 reps /\
         (forall r1 r2, In r1 reps -> In r2 reps -> connected Z0 r1 r2 -> r1 = r2) /\
         (forall q, inb row column q ->
            ((exists r, In r reps /\ connected Z0 r q) -> cell s q = 1) /\
            ((forall r, In r reps -> ~ connected Z0 r q) -> cell s q = cell b q)) /\
         (forall p, In p done -> Z0 p -> exists r, In r reps /\ connected Z0 r p))
    (positions row column) (b, 0%nat)) as ([s op] & E & Hrs & reps & HP) end.
  - split; [exact Hr|]. exists []. split; [reflexivity|]. split; [constructor|]. split; [constructor|].
    split; [intros r1 r2 []|]. split; [|intros p []].
    intros q Hq. split; [intros (r & [] & _)|reflexivity].
  - intros done [i j] rest [s op] Hl (Hrs & reps & Hlen & Hnd & Hz & Hu & Hc & Hcov).
    assert (Hij : inb row column (i, j)).
    { apply in_positions. rewrite Hl. apply in_or_app; right; left; auto. }
    rewrite (get_ok Hrs Hij). cbn [bind].
    rewrite Forall_forall in Hz.
    (* decide whether (i,j) is connected to a representative *)
    assert (Hdec : (exists r, In r reps /\ connected Z0 r (i, j)) \/ (forall r, In r reps -> ~ connected Z0 r (i, j))).
    { clear -Hr Hz Hij. induction reps as [|r reps IH]; [right; intros r []|].
      destruct (@connected_dec row column b Hr r (i, j)) as [H|H]; auto.
      - apply (Hz r). left; auto.
      - left. exists r. split; [left; auto|exact H].
      - destruct IH as [(r' & H1 & H2)|H1].
        + intros x Hx. apply Hz. right; auto.
        + left. exists r'. split; [right|]; auto.
        + right. intros x [<-|Hx]; auto. }
    destruct Hdec as [Hyes|Hno].
    + destruct (Hc _ Hij) as [Hc1 _]. rewrite (Hc1 Hyes). cbn [Z.eqb].
      exists (s, op). split; [reflexivity|]. split; [exact Hrs|]. exists reps.
      rewrite <- Forall_forall in Hz. repeat split; auto; try apply Hc; auto.
      intros p Hp Hpz. apply in_app_or in Hp as [Hp|[<-|[]]]; auto.
    + destruct (Hc _ Hij) as [_ Hc2]. rewrite (Hc2 Hno).
      destruct (Z.eqb_spec (cell b (i, j)) 0) as [Eb|Eb].
      * assert (Es : cell s (i, j) = 0) by (rewrite (Hc2 Hno); auto).
        (* zeros of s are zeros of b not connected to reps *)
        assert (Hsz : forall p, zero row column s p <-> Z0 p /\ forall r, In r reps -> ~ connected Z0 r p).
        { intros p. split.
          - intros [Hp Hp0].
            assert (Hno' : forall r, In r reps -> ~ connected Z0 r p).
            { intros r Hri Hcr. destruct (Hc p Hp) as [H1 _].
              assert (cell s p = 1) by (apply H1; eauto). lia. }
            destruct (Hc p Hp) as [_ H2]. rewrite (H2 Hno') in Hp0. split; [split; auto|auto].
          - intros [[Hp Hp0] Hno']. split; auto. destruct (Hc p Hp) as [_ H2]. rewrite (H2 Hno'); auto. }
        destruct (@infect_exact row column (row * column + 1) s i j Hrs Hij Es) as (s' & E' & Hrs' & Hex).
        { unfold nzeros. pose proof (count_le (fun p => cell s p =? 0) (positions row column)) as Hle.
          rewrite length_positions in Hle. lia. }
        rewrite E'. cbn [bind]. exists (s', S op). split; [reflexivity|]. split; [exact Hrs'|].
        assert (Hcs : forall q, connected (zero row column s) (i, j) q <-> connected Z0 (i, j) q).
        { intros q. split.
          - apply connected_mono. intros x Hx. now apply Hsz.
          - intros Hq. remember (i, j) as s0 eqn:E0. induction Hq as [p Hp|p q r Hpq IH Hn Hrz].
            + constructor. subst. apply Hsz. auto.
            + subst p. apply (@conn_step _ _ q r); auto. apply Hsz. split; auto.
              intros r' Hr' Hcr. apply (Hno r' Hr').
              eapply connected_trans; [exact Hcr|]. apply connected_sym.
              apply (@conn_step _ _ q r); auto. }
        exists ((i, j) :: reps). split; [simpl; congruence|]. split; [|split; [|split; [|split]]].
        -- constructor; auto. intros Hri. apply (Hno _ Hri). constructor. split; auto.
        -- constructor; [split; auto|]. now apply Forall_forall.
        -- intros r1 r2 [<-|H1] [<-|H2] Hcr; auto.
           ++ exfalso. apply (Hno _ H2). now apply connected_sym.
           ++ exfalso. apply (Hno _ H1). auto.
        -- intros q Hq. destruct (Hex q Hq) as (Hx1 & Hx2 & _). rewrite Hcs in Hx1, Hx2.
           destruct (Hc q Hq) as [Hq1 Hq2]. split.
           ++ intros (r & [<-|Hri] & Hcr); [auto|].
              rewrite Hx2; eauto. intros Hcij. apply (Hno r Hri).
              eapply connected_trans; [exact Hcr|now apply connected_sym].
           ++ intros Hnone. rewrite Hx2; [|apply Hnone; left; auto].
              apply Hq2. intros r Hri. apply Hnone. right; auto.
        -- intros p Hp Hpz. apply in_app_or in Hp as [Hp|[<-|[]]].
           ++ destruct (Hcov p Hp Hpz) as (r & H1 & H2). exists r. split; [right|]; auto.
           ++ exists (i, j). split; [left; auto|]. now constructor.
      * exists (s, op). split; [reflexivity|]. split; [exact Hrs|]. exists reps.
        rewrite <- Forall_forall in Hz. repeat split; auto; try apply Hc; auto.
        intros p Hp Hpz. apply in_app_or in Hp as [Hp|[<-|[]]]; auto.
        destruct Hpz as [_ Hpz]. congruence.
  - rewrite E. cbn [bind snd]. exists op. split; [reflexivity|].
    destruct HP as (Hlen & Hnd & Hz & Hu & _ & Hcov).
    exists reps. repeat split; auto. intros p Hp. apply Hcov; auto.
    apply in_positions, Hp.
Qed.

Lemma island_cellb_iff row column b p :
  inb row column p -> island_cell row column b p <-> island_cellb row column b p = true.
Proof.
  intros Hp. unfold island_cell, island_cellb. rewrite andb_true_iff, Z.ltb_lt, forallb_forall. split.
  - intros (_ & H0 & H). split; [lia|]. intros q Hq. apply in_positions in Hq.
    destruct (nearb_spec p q) as [Hn|]; simpl; auto.
    specialize (H q Hq Hn). destruct (Z.eqb_spec (cell b q) 0); [contradiction|reflexivity].
  - intros [H0 E]. split; auto. split; [lia|]. intros q Hq Hn Hz.
    specialize (E q (proj2 (in_positions _ _ _) Hq)). rewrite Hz in E.
    destruct (nearb_spec p q); [discriminate|contradiction].
Qed.
Lemma island_cellb_spec row column b p :
  inb row column p -> reflect (island_cell row column b p) (island_cellb row column b p).
Proof. intros Hp. apply iff_reflect. now apply island_cellb_iff. Qed.

Lemma zone_zero row column b i j :
  existsb (fun q => cell b q =? 0) (zone row column i j) = true <->
  exists q, inb row column q /\ near (i, j) q /\ cell b q = 0.
Proof.
  rewrite existsb_exists. split.
  - intros (q & Hq & H). apply in_zone in Hq as [H1 H2]. apply Z.eqb_eq in H. eauto.
  - intros (q & H1 & H2 & H3). exists q. split; [now apply in_zone|now apply Z.eqb_eq].
Qed.

Lemma island_zone row column b i j :
  inb row column (i, j) -> 0 < cell b (i, j) ->
  island_cellb row column b (i, j) = negb (existsb (fun q => cell b q =? 0) (zone row column i j)).
Proof.
  intros Hp H0. destruct (island_cellb_spec b Hp) as [(_ & _ & H)|H].
  - destruct (existsb _ _) eqn:E; [|reflexivity]. apply zone_zero in E as (q & H1 & H2 & H3).
    exfalso. apply (H q); auto.
  - destruct (existsb _ _) eqn:E; [reflexivity|]. exfalso. apply H.
    split; auto. split; [lia|]. intros q Hq Hn Hz.
    assert (existsb (fun q => cell b q =? 0) (zone row column i j) = true); [|congruence].
    apply zone_zero. eauto.
Qed.

Lemma hits_zero row column b i j :
  rect row column b ->
  (forall x, In x (zone row column i j) ->
    (fun '(m, n) => let* w := get b m n in Ok (w =? 0)) x = Ok (cell b x =? 0)).
Proof.
  intros Hr [m n] Hx. apply in_zone in Hx as [Hx _]. now rewrite (get_ok Hr Hx).
Qed.

Lemma components_ext (P Q : pos -> Prop) n : (forall p, P p <-> Q p) -> components P n -> components Q n.
Proof.
  intros H (reps & L & N & F & C & U). exists reps. repeat split; auto.
  - eapply Forall_impl; [|exact F]. intros; now apply H.
  - intros p Hp. destruct (C p) as (r & Hr & Hc); [now apply H|]. exists r; split; auto.
    eapply connected_mono; [|exact Hc]. intros; now apply H.
  - intros r1 r2 H1 H2 Hc. apply U; auto. eapply connected_mono; [|exact Hc]. intros; now apply H.
Qed.

Lemma cal_isl_ok row column b :
  rect row column b -> (0 < row)%nat ->
  exists n, cal_isl b = Ok n /\ components (island_cell row column b) n.
Proof.
  intros Hr Hrow. unfold cal_isl, get_row, get_column.
  rewrite (ncolsR_ok Hr Hrow), (nrows_ok Hr). cbn [bind].
  change (grid row column) with (positions row column).
  match goal with |- context [foldM ?f _ _] =>
  destruct (@foldM_pointwise row column f (fun p v => if island_cellb row column b p then 0 else v)
             (positions row column) (NoDup_positions _ _)) with (b := mkboard row column 1)
    as (b' & E & Hr' & Hc) end.
  - intros p Hp. now apply in_positions.
  - intros s [i j] Hij Hs. apply in_positions in Hij.
    rewrite (get_ok Hr Hij). cbn [bind].
    destruct (Z.leb_spec (cell b (i, j)) 0) as [H0|H0].
    + replace (island_cellb row column b (i, j)) with false.
      * now rewrite (upd_same Hs Hij).
      * unfold island_cellb. destruct (Z.ltb_spec 0 (cell b (i, j))); [lia|reflexivity].
    + rewrite (findM_ok (@hits_zero row column b i j Hr)). cbn [bind].
      rewrite island_zone by (auto; lia).
      destruct (existsb _ _); simpl.
      * now rewrite (upd_same Hs Hij).
      * apply (set_ok _ Hs Hij).
  - apply rect_mkboard.
  - rewrite E. cbn [bind]. destruct (cal_op_ok Hr' Hrow) as (n & En & Hcomp).
    exists n. split; [exact En|]. eapply components_ext; [|exact Hcomp].
    intros p. unfold zero_cell. split.
    + intros [Hp Hz]. rewrite Hc in Hz. destruct (inl p (positions row column)) eqn:Ei.
      * destruct (island_cellb_spec b Hp); auto. rewrite cell_mkboard in Hz by auto. discriminate.
      * rewrite cell_mkboard in Hz by auto. discriminate.
    + intros Hi. assert (Hp : inb row column p) by apply Hi. split; auto. rewrite Hc.
      destruct (inl_spec p (positions row column)) as [_|Hn]; [|exfalso; apply Hn; now apply in_positions].
      destruct (island_cellb_spec b Hp); [reflexivity|contradiction].
Qed.

Lemma cal3BVonIsland_ok row column b :
  rect row column b -> (0 < row)%nat ->
  cal3BVonIsland b = Ok (count (island_cellb row column b) (positions row column)).
Proof.
  intros Hr Hrow. unfold cal3BVonIsland, get_row, get_column.
  rewrite (ncolsR_ok Hr Hrow), (nrows_ok Hr). cbn [bind].
  change (grid row column) with (positions row column).
  match goal with |- context [foldM ?f _ _] =>
  destruct (@foldM_inv nat pos f (fun done n => n = count (island_cellb row column b) done)
     (positions row column) 0%nat) as (n & E & Hn) end.
  - reflexivity.
  - intros done [i j] rest n Hl Hn.
    assert (Hij : inb row column (i, j)).
    { apply in_positions. rewrite Hl. apply in_or_app; right; left; auto. }
    rewrite (get_ok Hr Hij). cbn [bind].
    destruct (Z.ltb_spec 0 (cell b (i, j))) as [H0|H0].
    + rewrite (anyM_ok (@hits_zero row column b i j Hr)). cbn [bind].
      eexists; split; [reflexivity|]. rewrite count_app, count_cons, count_nil.
      rewrite island_zone by auto. destruct (existsb _ _); simpl; lia.
    + exists n. split; [reflexivity|]. rewrite count_app, count_cons, count_nil.
      unfold island_cellb at 2. destruct (Z.ltb_spec 0 (cell b (i, j))); [lia|simpl; lia].
  - rewrite E. now subst.
Qed.

Lemma cal_bbbv_ok row column b :
  rect row column b -> (0 < row)%nat ->
  exists n, components (zero_cell row column b) n /\
    cal_bbbv b = Ok (count (island_cellb row column b) (positions row column) + n)%nat.
Proof.
  intros Hr Hrow. destruct (cal_op_ok Hr Hrow) as (n & En & Hc). exists n. split; auto.
  unfold cal_bbbv. rewrite (cal3BVonIsland_ok Hr Hrow). cbn [bind]. now rewrite En.
Qed.

Lemma cal_cell_nums_ok row column b :
  rect row column b -> (0 < row)%nat -> (forall p, inb row column p -> cell b p <= 8) ->
  exists l, cal_cell_nums b = Ok l /\ length l = 9%nat /\
    forall k, (k < 9)%nat -> nth k l 0%nat = count (fun p => cell b p =? Z.of_nat k) (positions row column).
Proof.
  intros Hr Hrow H8. unfold cal_cell_nums, get_row, get_column.
  rewrite (ncolsR_ok Hr Hrow), (nrows_ok Hr). cbn [bind].
  change (grid row column) with (positions row column).
  match goal with |- context [foldM ?f _ _] =>
  destruct (@foldM_inv (list nat) pos f (fun done l => length l = 9%nat /\
     forall k, (k < 9)%nat -> nth k l 0%nat = count (fun p => cell b p =? Z.of_nat k) done)
     (positions row column) (repeat 0%nat 9)) as (l & E & Hlen & Hn) end.
  - split; [reflexivity|]. intros k Hk. now rewrite nth_repeat_lt.
  - intros done [i j] rest l Hl [Hlen Hn].
    assert (Hij : inb row column (i, j)).
    { apply in_positions. rewrite Hl. apply in_or_app; right; left; auto. }
    rewrite (get_ok Hr Hij). cbn [bind]. specialize (H8 _ Hij).
    destruct (Z.ltb_spec (cell b (i, j)) 0) as [H0|H0].
    + exists l. split; [reflexivity|]. split; auto. intros k Hk. rewrite (Hn k Hk).
      rewrite count_app, count_cons, count_nil. destruct (Z.eqb_spec (cell b (i, j)) (Z.of_nat k)); lia.
    + rewrite (@vget_ok _ l _ 0%nat) by lia. cbn [bind]. rewrite vset_ok by lia.
      eexists; split; [reflexivity|]. rewrite length_upd_nth. split; auto.
      intros k Hk. rewrite count_app, count_cons, count_nil.
      destruct (Z.eqb_spec (cell b (i, j)) (Z.of_nat k)) as [He|He].
      * rewrite He, Nat2Z.id. rewrite nth_upd_nth_eq by lia. rewrite Hn by lia. lia.
      * rewrite nth_upd_nth_neq by lia. rewrite Hn by lia. lia.
  - exists l. auto.
Qed.

(** the nine counters add up to the number of cells that are not negative *)
Lemma cell_nums_sum (b : board) (ps : list pos) :
  (forall p, In p ps -> cell b p <= 8) ->
  list_sum (map (fun k => count (fun p => cell b p =? Z.of_nat k) ps) (seq 0 9)) =
  count (fun p => 0 <=? cell b p) ps.
Proof.
  induction ps as [|p ps IH]; intros H; [reflexivity|].
  rewrite count_cons. rewrite <- IH by (intros; apply H; right; auto). clear IH.
  cbn [seq map list_sum fold_right]. rewrite !count_cons.
  assert (H8 := H p (or_introl eq_refl)).
  repeat match goal with |- context [cell b p =? Z.of_nat ?k] =>
    let z := eval compute in (Z.of_nat k) in change (Z.of_nat k) with z end.
  generalize dependent (cell b p). intros v Hv. 
  destruct (Z.leb_spec 0 v).
  - assert (Hd : v = 0 \/ v = 1 \/ v = 2 \/ v = 3 \/ v = 4 \/ v = 5 \/ v = 6 \/ v = 7 \/ v = 8) by lia.
    repeat (destruct Hd as [->|Hd]; [simpl; lia|]). rewrite Hd. simpl. lia.
  - repeat match goal with |- context [v =? ?k] => destruct (Z.eqb_spec v k); [lia|] end. lia.
Qed.
