(** * 3BV is the minimum number of clicks. *)
From Verif Require Import Base Spec BaseFacts LayMineProofs Metrics MetricsProofs Refresh RefreshProofs.
Open Scope Z_scope.

(** left clicks one after the other, each through refresh_board *)
Definition play (b g : board) (ps : list pos) : R board :=
  foldM (fun g p => refresh_board b g [p]) ps g.

Section S.
Variables (row column : nat) (b : board).
Hypothesis Hleg : legal_board row column b.
Hypothesis Hrow : (0 < row)%nat.

Notation Z0 := (zero_cell row column b).
Definition touched (p q : pos) : Prop := p = q \/ exists z, connected Z0 p z /\ near z q.

Lemma legal_lt10 p : inb row column p -> cell b p < 10.
Proof.
  intros Hp. destruct Hleg as [_ Hc]. destruct (Hc p Hp) as [E|E]; rewrite E; [lia|].
  pose proof (adj_count_le row column (is_mine b) p). lia.
Qed.
Lemma legal_ge p : inb row column p -> -1 <= cell b p.
Proof. intros Hp. destruct Hleg as [_ Hc]. destruct (Hc p Hp) as [E|E]; rewrite E; lia. Qed.
Lemma zero_no_mine z q : Z0 z -> inb row column q -> near z q -> 0 <= cell b q.
Proof.
  intros [Hz H0] Hq Hn. destruct (pos_eq_dec z q) as [<-|Hne]; [lia|].
  destruct Hleg as [_ Hc]. destruct (Hc q Hq) as [E|E]; [|rewrite E; lia].
  exfalso. destruct (Hc z Hz) as [E'|E']; [congruence|]. rewrite H0 in E'.
  assert (adj_count row column (is_mine b) z = 0%nat) as E0 by lia.
  pose proof (count_zero_inv E0 (proj2 (in_positions _ _ _) Hq)) as H. cbv beta in H.
  unfold is_mine in H. rewrite E in H. simpl in H. rewrite andb_true_r in H.
  destruct (adjb_spec z q) as [|Ha]; [discriminate|]. apply Ha. split; auto.
Qed.

Lemma opens_touched g p q : inb row column p -> opens row column b g [p] q -> touched p q.
Proof.
  intros Hp H. induction H as [q [<-|[]]|p' q Hp' IH H0 Hq [_ Hn] Hc]; [left; auto|].
  right. exists p'. split; auto.
  assert (Hp'b : inb row column p').
  { clear -Hp Hp'. induction Hp' as [x [<-|[]]|]; auto. }
  destruct IH as [->|(z & Hz & Hzn)].
  - constructor. split; auto.
  - apply (@conn_step _ p z p'); auto. split; auto.
Qed.

Definition covered10 (g : board) := forall q, inb row column q -> cell g q = 10 \/ cell g q = shown b q.

(** what a play can open *)
Lemma play_touched ps : forall g g' (T : pos -> Prop),
  rect row column g -> (forall p, In p ps -> inb row column p) ->
  (forall q, inb row column q -> cell g q <> 10 -> T q) ->
  covered10 g ->
  play b g ps = Ok g' ->
  rect row column g' /\ covered10 g' /\
  (forall q, inb row column q -> cell g' q <> 10 -> T q \/ exists p, In p ps /\ touched p q).
Proof.
  induction ps as [|p ps IH]; intros g g' T Hg Hps HT Hc10 H.
  - inversion H; subst. split; auto. 
  - cbn [play foldM] in H. apply bind_ok in H as (g1 & E1 & H).
    assert (Hp : inb row column p) by (apply Hps; left; auto).
    destruct (@refresh_board_ok row column b g [p]) as (g1' & E1' & Hr1 & Ho & Hl & Hn); auto.
    { apply Hleg. } { apply legal_lt10. } { intros x [<-|[]]; auto. }
    rewrite E1 in E1'. inversion E1'; subst g1'. clear E1'.
    assert (Hdec := @opens_dec row column b g [p] (proj1 Hleg) Hg legal_lt10
              (fun x Hx => match Hx with or_introl e => eq_ind _ (inb row column) Hp _ e | or_intror f => match f with end end)).
    (* no flags on the board, so the loss branch changes nothing else *)
    assert (Hkeep : forall q, inb row column q -> ~ opens row column b g [p] q -> cell g1 q = cell g q).
    { intros q Hq Hno. destruct (Z.lt_ge_cases (cell b p) 0) as [Hneg|Hpos].
      - rewrite Hl; auto.
        + destruct (Z.eqb_spec (cell g q) 11) as [E|]; [|reflexivity].
          exfalso. destruct (Hc10 q Hq) as [E'|E']; [lia|]. unfold shown in E'.
          pose proof (legal_lt10 Hq). destruct (Z.ltb_spec (cell b q) 0); lia.
        + exists p. split; auto. constructor. left; auto.
      - apply Hn; auto. intros x Hx. apply opens_touched in Hx as [<-|(z & Hz & Hzn)]; auto.
        destruct (inb_dec row column x) as [Hx|Hx].
        + apply (@zero_no_mine z); auto. now apply connected_r in Hz.
        + rewrite cell_out with (row := row) (column := column); auto; [lia|apply Hleg]. }
    destruct (IH g1 g' (fun q => T q \/ touched p q)) as (Hr' & Hc' & Ht'); auto.
    + intros x Hx. apply Hps. right; auto.
    + intros q Hq Hne. destruct (Hdec q Hq) as [Hop|Hnop].
      * right. now apply opens_touched in Hop.
      * left. apply HT; auto. rewrite <- (Hkeep q Hq Hnop). auto.
    + intros q Hq. destruct (Hdec q Hq) as [Hop|Hnop]; [right; auto|].
      rewrite (Hkeep q Hq Hnop). auto.
    + split; auto. split; auto. intros q Hq Hne.
      destruct (Ht' q Hq Hne) as [[H1|H1]|(x & Hx & Hxt)]; auto.
      * right. exists p. split; [left; auto|auto].
      * right. exists x. split; [right; auto|auto].
Qed.

(** every click serves at most one unit *)
Definition serves (p u : pos) : Prop :=
  (island_cell row column b u /\ p = u) \/ (Z0 u /\ connected Z0 p u).

Lemma touched_serves p u : inb row column u -> island_cell row column b u \/ Z0 u -> touched p u -> serves p u.
Proof.
  intros Hu [Hi|Hz] Ht; [left|right]; (split; [auto|]).
  - destruct Ht as [->|(z & Hz & Hn)]; auto. exfalso.
    apply connected_r in Hz as [Hzb Hz0]. destruct Hi as (_ & _ & Hi).
    apply (Hi z); auto using near_sym.
  - destruct Ht as [->|(z & Hz' & Hn)]; [constructor; auto|].
    apply (@conn_step _ p z u); auto.
Qed.

Lemma pigeon (serv : pos -> pos -> Prop) (us ps : list pos) :
  NoDup us -> (forall u, In u us -> exists p, In p ps /\ serv p u) ->
  (forall p u1 u2, In u1 us -> In u2 us -> serv p u1 -> serv p u2 -> u1 = u2) ->
  (length us <= length ps)%nat.
Proof.
  revert ps. induction us as [|u us IH]; intros ps Hnd Hex Huniq; [simpl; lia|].
  inversion Hnd; subst. destruct (Hex u (or_introl eq_refl)) as (p & Hp & Hs).
  apply in_split in Hp as (l1 & l2 & ->). rewrite app_length. simpl.
  assert (length us <= length (l1 ++ l2))%nat; [|rewrite app_length in *; lia].
  apply IH; auto.
  - intros u' Hu'. destruct (Hex u' (or_intror Hu')) as (p' & Hp' & Hs').
    exists p'. split; auto. apply in_app_or in Hp' as [H|[->|H]]; apply in_or_app; auto.
    exfalso. assert (u = u') by (apply (Huniq p'); auto using in_eq; right; auto). subst; auto.
  - intros. eapply Huniq; eauto; right; auto.
Qed.

Lemma units reps :
  NoDup reps -> Forall Z0 reps ->
  (forall r1 r2, In r1 reps -> In r2 reps -> connected Z0 r1 r2 -> r1 = r2) ->
  let us := reps ++ filter (island_cellb row column b) (positions row column) in
  NoDup us /\ (forall u, In u us -> inb row column u /\ (island_cell row column b u \/ Z0 u)) /\
  (forall p u1 u2, In u1 us -> In u2 us -> serves p u1 -> serves p u2 -> u1 = u2).
Proof.
  intros Hnd HF Hu us. rewrite Forall_forall in HF.
  assert (Hisl : forall u, In u (filter (island_cellb row column b) (positions row column)) -> island_cell row column b u).
  { intros u Hin. apply filter_In in Hin as [Hin Hb]. apply in_positions in Hin.
    now apply island_cellb_iff. }
  assert (Hdis : forall u, Z0 u -> island_cell row column b u -> False).
  { intros u [_ H0] (_ & H1 & _). lia. }
  split; [|split].
  - unfold us. apply NoDup_app_disj; auto.
    + apply NoDup_filter, NoDup_positions.
    + intros x H1 H2. apply (Hdis x); auto.
  - intros u Hin. unfold us in Hin. apply in_app_or in Hin as [H|H].
    + split; [apply (HF u H)|right; auto].
    + split; [apply (Hisl u H)|left; auto].
  - intros p u1 u2 H1 H2 S1 S2. unfold us in *.
    assert (Hreps : forall u, In u (reps ++ filter (island_cellb row column b) (positions row column)) -> Z0 u -> In u reps).
    { intros u Hin Hz. apply in_app_or in Hin as [H|H]; auto. exfalso; eauto. }
    destruct S1 as [[I1 ->]|[Z1 C1]], S2 as [[I2 E2]|[Z2 C2]]; auto.
    + exfalso. apply connected_l in C2. eauto.
    + exfalso. subst. apply connected_l in C1. eauto.
    + apply Hu; auto. eapply connected_trans; [apply connected_sym, C1|exact C2].
Qed.

Lemma bbbv_lower ps g reps :
  NoDup reps -> Forall Z0 reps ->
  (forall r1 r2, In r1 reps -> In r2 reps -> connected Z0 r1 r2 -> r1 = r2) ->
  (forall p, In p ps -> inb row column p) ->
  play b (mkboard row column 10) ps = Ok g ->
  (forall q, inb row column q -> cell b q <> -1 -> cell g q = cell b q) ->
  (length reps + count (island_cellb row column b) (positions row column) <= length ps)%nat.
Proof.
  intros Hnd HF Hu Hps Hpl Hall.
  destruct (units Hnd HF Hu) as (Und & Uin & Uuniq).
  set (us := reps ++ _) in *.
  replace (length reps + count (island_cellb row column b) (positions row column))%nat with (length us)
    by (unfold us, count; now rewrite app_length).
  destruct (@play_touched ps (mkboard row column 10) g (fun _ => False)) as (_ & _ & Ht); auto.
  - apply rect_mkboard.
  - intros q Hq Hne. apply Hne. now apply cell_mkboard.
  - intros q Hq. left. now apply cell_mkboard.
  - apply (@pigeon serves); auto. intros u Hin. destruct (Uin u Hin) as [Hub Huk].
    destruct (Ht u Hub) as [[]|(p & Hp & Htp)].
    + assert (Hs : cell b u <> -1) by (destruct Huk as [(_ & H & _)|[_ H]]; lia).
      rewrite (Hall u Hub Hs). pose proof (legal_lt10 Hub). lia.
    + exists p. split; auto. apply touched_serves; auto.
Qed.

(** upper bound: click the representatives, then the island cells *)
Definition state_of (g : board) (T : pos -> Prop) : Prop :=
  rect row column g /\
  forall q, inb row column q -> (T q -> cell g q = cell b q) /\ (~ T q -> cell g q = 10).

Lemma touched_dec p q : inb row column p -> inb row column q -> touched p q \/ ~ touched p q.
Proof.
  intros Hp Hq. destruct (pos_eq_dec p q) as [|Hne]; [left; left; auto|].
  assert (G : forall l, (forall z, In z l -> inb row column z) ->
     (exists z, In z l /\ connected Z0 p z /\ near z q) \/ (forall z, In z l -> connected Z0 p z -> ~ near z q)).
  { induction l as [|z l IH]; intros Hl; [right; intros z []|].
    destruct IH as [(z' & H1 & H2)|IH]; [intros; apply Hl; right; auto| |].
    - left. exists z'. split; [right|]; auto.
    - destruct (@connected_dec row column b (proj1 Hleg) p z) as [Hc|Hc]; auto.
      { apply Hl; left; auto. }
      + destruct (nearb_spec z q) as [Hn|Hn].
        * left. exists z. split; [left|]; auto.
        * right. intros x [<-|Hx]; auto.
      + right. intros x [<-|Hx]; auto. }
  destruct (G (positions row column)) as [(z & _ & H)|H].
  - intros z. apply in_positions.
  - left. right. exists z. auto.
  - right. intros [|(z & Hz & Hn)]; [auto|]. apply (H z); auto. apply in_positions.
    apply (connected_r Hz).
Qed.

Lemma state_of_ext g T T' : (forall q, inb row column q -> T q <-> T' q) -> state_of g T -> state_of g T'.
Proof. intros H [Hr Hc]. split; auto. intros q Hq. rewrite <- !(H q Hq). auto. Qed.

Lemma click_zero g T r :
  state_of g T -> Z0 r -> (forall q, inb row column q -> T q \/ ~ T q) ->
  (forall q, connected Z0 r q -> ~ T q) ->
  exists g', refresh_board b g [r] = Ok g' /\ state_of g' (fun q => T q \/ touched r q).
Proof.
  intros [Hr Hc] Hz HTd Hfresh. assert (Hrb : inb row column r) by apply Hz.
  destruct (@refresh_board_ok row column b g [r]) as (g' & E & Hr' & Ho & _ & Hn); auto.
  { apply Hleg. } { apply legal_lt10. } { intros x [<-|[]]; auto. }
  exists g'. split; auto. split; auto.
  assert (Hsafe : forall q, inb row column q -> touched r q -> 0 <= cell b q).
  { intros q Hq [<-|(z & Hz' & Hzn)]; [destruct Hz; lia|].
    apply (@zero_no_mine z); auto. now apply connected_r in Hz'. }
  assert (Hcomp : forall q, connected Z0 r q -> opens row column b g [r] q).
  { intros q Hq. induction Hq as [p Hp|p q s Hpq IH Hns Hs].
    - constructor; left; auto.
    - destruct (pos_eq_dec q s) as [<-|Hne]; auto.
      apply (@opens_spread _ _ _ _ _ q s); auto.
      + apply (connected_r Hpq).
      + apply Hs.
      + split; auto.
      + left. apply Hc; [apply Hs|]. apply Hfresh. apply (@conn_step _ p q s); auto. }
  assert (Hshow : forall q, inb row column q -> 0 <= cell b q -> shown b q = cell b q).
  { intros q Hq H0. unfold shown. destruct (Z.ltb_spec (cell b q) 0); lia. }
  assert (Hdec := @opens_dec row column b g [r] (proj1 Hleg) Hr legal_lt10
              (fun x Hx => match Hx with or_introl e => eq_ind _ (inb row column) Hrb _ e | or_intror f => match f with end end)).
  assert (Hn' : forall q, inb row column q -> ~ opens row column b g [r] q -> cell g' q = cell g q).
  { apply Hn. intros p Hp. destruct (inb_dec row column p) as [Hpb|Hpb].
    - apply Hsafe; auto. now apply opens_touched with g.
    - exfalso. apply Hpb. clear -Hp Hrb. induction Hp as [x [<-|[]]|]; auto. }
  intros q Hq. split.
  - intros [HT|Ht].
    + destruct (Hdec q Hq) as [Hop|Hno].
      * rewrite Ho by auto. apply Hshow; auto. apply Hsafe; auto. now apply opens_touched with g.
      * rewrite Hn' by auto. now apply Hc.
    + destruct (Hdec q Hq) as [Hop|Hno].
      * rewrite Ho by auto. apply Hshow; auto.
      * rewrite Hn' by auto. destruct (HTd q Hq) as [HT|HnT]; [now apply Hc|].
        exfalso. apply Hno. destruct Ht as [<-|(z & Hz' & Hzn)]; [constructor; left; auto|].
        destruct (pos_eq_dec z q) as [<-|Hne]; [auto|].
        apply (@opens_spread _ _ _ _ _ z q); auto.
        -- apply (connected_r Hz').
        -- split; auto.
        -- left. now apply Hc.
  - intros Hno. assert (HnT : ~ T q) by tauto.
    destruct (Hdec q Hq) as [Hop|Hnop].
    + exfalso. apply Hno. right. now apply opens_touched with g.
    + rewrite Hn' by auto. now apply Hc.
Qed.

Lemma click_number g T p :
  state_of g T -> inb row column p -> 0 < cell b p ->
  exists g', refresh_board b g [p] = Ok g' /\ state_of g' (fun q => T q \/ p = q).
Proof.
  intros [Hr Hc] Hp H0.
  destruct (@refresh_board_ok row column b g [p]) as (g' & E & Hr' & Ho & _ & Hn); auto.
  { apply Hleg. } { apply legal_lt10. } { intros x [<-|[]]; auto. }
  exists g'. split; auto. split; auto.
  assert (Hop : forall q, opens row column b g [p] q -> q = p).
  { intros q Hq. induction Hq as [q [<-|[]]|x q Hx IH Hz]; auto. subst x. lia. }
  assert (Hn' : forall q, inb row column q -> ~ opens row column b g [p] q -> cell g' q = cell g q).
  { apply Hn. intros x Hx. apply Hop in Hx. subst. lia. }
  intros q Hq. destruct (pos_eq_dec p q) as [<-|Hne].
  - split; [|tauto]. intros _. rewrite Ho; auto.
    + unfold shown. destruct (Z.ltb_spec (cell b p) 0); lia.
    + constructor. left; auto.
  - rewrite Hn'; auto; [|intros H; apply Hop in H; congruence].
    split; [intros [H|H]; [now apply Hc|congruence]|]. intros H. apply Hc; tauto.
Qed.

Lemma bbbv_upper reps :
  NoDup reps -> Forall Z0 reps ->
  (forall p, Z0 p -> exists r, In r reps /\ connected Z0 r p) ->
  (forall r1 r2, In r1 reps -> In r2 reps -> connected Z0 r1 r2 -> r1 = r2) ->
  exists g, play b (mkboard row column 10)
              (reps ++ filter (island_cellb row column b) (positions row column)) = Ok g /\
    forall q, inb row column q -> cell g q = if is_mine b q then 10 else cell b q.
Proof.
  intros Hnd HF Hcov Hu.
  (* phase 1 *)
  assert (P1 : forall rs pre, reps = pre ++ rs ->
     forall g, state_of g (fun q => exists r, In r pre /\ touched r q) ->
     exists g', play b g rs = Ok g' /\ state_of g' (fun q => exists r, In r reps /\ touched r q)).
  { induction rs as [|r rs IH]; intros pre Hsp g Hg.
    - exists g. split; [reflexivity|]. rewrite app_nil_r in Hsp. now subst pre.
    - rewrite Forall_forall in HF.
      assert (Hrin : In r reps) by (rewrite Hsp; apply in_or_app; right; left; auto).
      assert (Hpre : forall x, In x pre -> In x reps) by (intros; rewrite Hsp; apply in_or_app; auto).
      destruct (@click_zero g _ r Hg) as (g' & E & Hg').
      + auto.
      + intros q Hq. clear -HF Hpre Hq Hleg Hrow.
        induction pre as [|x pre IHp]; [right; intros (r & [] & _)|].
        destruct IHp as [(r & H1 & H2)|IHp]; [intros; apply Hpre; right; auto| |].
        * left. exists r. split; [right|]; auto.
        * destruct (@touched_dec x q) as [Ht|Ht]; auto.
          { apply HF, Hpre; left; auto. }
          -- left. exists x. split; [left|]; auto.
          -- right. intros (r & [<-|H1] & H2); [auto|]. apply IHp. eauto.
      + intros q Hq (x & Hx & Ht).
        assert (Hqz : Z0 q) by now apply connected_r in Hq.
        assert (Hxq : connected Z0 x q).
        { destruct Ht as [<-|(z & Hz & Hzn)]; [constructor; auto|]. apply (@conn_step _ x z q); auto. }
        assert (Exr : x = r).
        { apply Hu; auto. eapply connected_trans; [exact Hxq|now apply connected_sym]. }
        subst x. rewrite Hsp in Hnd. apply NoDup_remove_2 in Hnd. apply Hnd, in_or_app; auto.
      + cbn [play foldM]. rewrite E. cbn [bind].
        apply (IH (pre ++ [r])).
        * rewrite <- app_assoc. exact Hsp.
        * eapply state_of_ext; [|exact Hg']. intros q Hq. split.
          -- intros [(x & H1 & H2)|H]; [exists x|exists r]; split; auto; apply in_or_app; auto.
             right; left; auto.
          -- intros (x & H1 & H2). apply in_app_or in H1 as [H1|[<-|[]]]; eauto. }
  assert (P2 : forall ns g T, (forall p, In p ns -> inb row column p /\ 0 < cell b p) -> state_of g T ->
     exists g', play b g ns = Ok g' /\ state_of g' (fun q => T q \/ In q ns)).
  { induction ns as [|p ns IH]; intros g T Hns Hg.
    - exists g. split; [reflexivity|]. eapply state_of_ext; [|exact Hg]. simpl; tauto.
    - destruct (Hns p (or_introl eq_refl)) as [Hp H0].
      destruct (@click_number g T p Hg Hp H0) as (g1 & E & Hg1).
      destruct (IH g1 _ (fun x Hx => Hns x (or_intror Hx)) Hg1) as (g' & E' & Hg').
      exists g'. split; [cbn [play foldM]; rewrite E; exact E'|].
      eapply state_of_ext; [|exact Hg']. simpl; tauto. }
  destruct (P1 reps [] eq_refl (mkboard row column 10)) as (g1 & E1 & Hg1).
  { split; [apply rect_mkboard|]. intros q Hq. split; [intros (r & [] & _)|].
    intros _. now apply cell_mkboard. }
  destruct (P2 (filter (island_cellb row column b) (positions row column)) g1
    (fun q => exists r, In r reps /\ touched r q)) as (g & E & [Hr Hg]); [|exact Hg1|].
  { intros p Hp. apply filter_In in Hp as [Hp Hi]. apply in_positions in Hp. split; auto.
    apply island_cellb_iff in Hi; auto. destruct Hi as (_ & H & _). lia. }
  exists g. split.
  - unfold play in *. rewrite foldM_app, E1. exact E.
  - intros q Hq. rewrite Forall_forall in HF. unfold is_mine. destruct (Z.eqb_spec (cell b q) (-1)) as [Hm|Hm].
    + apply Hg; auto. intros [(r & Hri & Ht)|Hi].
      * assert (0 <= cell b q); [|lia]. destruct Ht as [<-|(z & Hz & Hzn)].
        -- destruct (HF r Hri); lia.
        -- apply (@zero_no_mine z); auto. now apply connected_r in Hz.
      * apply filter_In in Hi as [_ Hi]. apply island_cellb_iff in Hi; auto. destruct Hi as (_ & H & _). lia.
    + apply Hg; auto. pose proof (legal_ge Hq).
      destruct (island_cellb_spec b Hq) as [Hi|Hi].
      * right. apply filter_In. split; [now apply in_positions|]. now apply island_cellb_iff.
      * left.
        (* q is zero or a number next to a zero *)
        destruct (Z.eq_dec (cell b q) 0) as [Hz|Hnz].
        -- destruct (Hcov q) as (r & H1 & H2); [split; auto|]. exists r. split; auto.
           right. exists q. split; auto using near_refl.
        -- assert (Hex : existsb (fun x => cell b x =? 0) (zone row column (fst q) (snd q)) = true).
           { destruct q as [i j]. cbn [fst snd]. destruct (existsb _ _) eqn:E0; auto.
             exfalso. apply Hi. apply island_cellb_iff; auto.
             rewrite island_zone by (auto; lia). now rewrite E0. }
           destruct q as [i j]. apply zone_zero in Hex as (z & Hzb & Hzn & Hz).
           destruct (Hcov z) as (r & H1 & H2); [split; auto|]. exists r. split; auto.
           right. exists z. split; auto using near_sym.
Qed.
End S.

Lemma bbbv_minimal row column b :
  legal_board row column b -> (0 < row)%nat ->
  exists n, cal_bbbv b = Ok n /\
    (exists k, components (zero_cell row column b) k /\
       n = (k + count (island_cellb row column b) (positions row column))%nat) /\
    (exists ps g, length ps = n /\ (forall p, In p ps -> inb row column p) /\
       play b (mkboard row column 10) ps = Ok g /\
       forall q, inb row column q -> cell g q = if is_mine b q then 10 else cell b q) /\
    (forall ps g, (forall p, In p ps -> inb row column p) ->
       play b (mkboard row column 10) ps = Ok g ->
       (forall q, inb row column q -> is_mine b q = false -> cell g q = cell b q) ->
       (n <= length ps)%nat).
Proof.
  intros Hleg Hrow. destruct (cal_bbbv_ok (proj1 Hleg) Hrow) as (k & Hk & E).
  exists (k + count (island_cellb row column b) (positions row column))%nat.
  destruct Hk as (reps & L & Nd & F & C & U).
  split; [rewrite E; f_equal; lia|]. split; [exists k; split; auto; exists reps; auto|]. split.
  - destruct (bbbv_upper Hleg Hrow Nd F C U) as (g & Ep & Hg).
    exists (reps ++ filter (island_cellb row column b) (positions row column)), g.
    split; [rewrite app_length; unfold count; lia|]. split; auto.
    intros p Hp. apply in_app_or in Hp as [Hp|Hp].
    + rewrite Forall_forall in F. apply F; auto.
    + apply filter_In in Hp as [Hp _]. now apply in_positions.
  - intros ps g Hps Hp Hall. rewrite <- L. eapply bbbv_lower; eauto.
    intros q Hq Hm. apply Hall; auto. unfold is_mine. now apply Z.eqb_neq.
Qed.

Lemma click_on_mine : forall row column b g p,
  legal_board row column b -> rect row column g -> (0 < row)%nat ->
  inb row column p -> is_mine b p = true ->
  exists g', refresh_board b g [p] = Ok g' /\ rect row column g' /\ cell g' p = 15 /\
    forall q, inb row column q -> q <> p ->
      cell g' q = if (cell g q =? 11) && negb (is_mine b q) then 14 else cell g q.
Proof.
  intros row column b g p Hleg Hg Hrow Hp Hm.
  destruct (@refresh_board_ok row column b g [p]) as (g' & E & Hr & H1 & H2 & _); auto;
    try apply Hleg; try (intros; eapply legal_lt10; eauto); try (intros x [<-|[]]; auto).
  unfold is_mine in Hm. apply Z.eqb_eq in Hm.
  assert (Hop : forall q, opens row column b g [p] q -> q = p).
  { intros q Hq. induction Hq as [q [<-|[]]|x q Hx IH Hz]; auto. subst x. lia. }
  assert (Hopp : opens row column b g [p] p) by (constructor; left; auto).
  exists g'. split; auto. split; auto. split.
  - rewrite H1 by auto. unfold shown. rewrite Hm. reflexivity.
  - intros q Hq Hne. apply H2; auto. exists p. split; auto. lia.
Qed.
