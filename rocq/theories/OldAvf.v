(** * OldAvf: the avf parser accepts exactly the format. *)
From Verif Require Import Base Spec BaseFacts LayMine LayMineProofs MineBoard Evf EvfSpec EvfProofs EvfSafe OldVideos OldSpec OldLib.
Open Scope Z_scope.

(** ** Mines *)
Section Mines.
Variables (row column : nat) (place : Z -> Z -> pos).
Definition pairs_of (l : list (Z * Z)) : list Z := flat_map (fun '(c, d) => [c; d]) l.
Definition marked_board (b : board) (l : list (Z * Z)) : board := fold_left (fun b '(c, d) => upd b (place c d) (-1)) l b.
Lemma marked_rect l : forall b, rect row column b -> rect row column (marked_board b l).
Proof. induction l as [|[c d] l IH]; intros b Hb; auto. cbn. apply IH. now apply rect_upd. Qed.
Lemma marked_cell l : forall b p, rect row column b -> Forall (fun '(c, d) => inb row column (place c d)) l ->
  cell (marked_board b l) p = if existsb (fun '(c, d) => posb (place c d) p) l then -1 else cell b p.
Proof.
  induction l as [|[c d] l IH]; intros b p Hr Hl; auto. inversion Hl; subst. cbn [existsb]. unfold marked_board. cbn [fold_left]. fold (marked_board (upd b (place c d) (-1)) l). rewrite IH by auto using rect_upd.
  destruct (existsb _ l); [now rewrite orb_true_r|]. rewrite orb_false_r. now rewrite (cell_upd _ _ Hr).
Qed.
(** the numbers *)
Lemma numbers_exact l b : Forall (fun '(c, d) => inb row column (place c d)) l ->
  (cal_board_numbers (marked_board (mkboard row column 0) l) = Ok b <-> (1 <= row)%nat /\ board_of row column (map (fun '(c, d) => place c d) l) b).
Proof.
  intros Hl. set (b0 := marked_board (mkboard row column 0) l). assert (Hr : rect row column b0) by (apply marked_rect, rect_mkboard).
  assert (Hin : forall p, existsb (fun '(c, d) => posb (place c d) p) l = true <-> In p (map (fun '(c, d) => place c d) l)).
  { intros p. rewrite existsb_exists, in_map_iff. split; intros ([c d] & H1 & H2).
    - exists (c, d). split; auto. now destruct (posb_spec (place c d) p).
    - exists (c, d). split; auto. subst p. apply posb_refl. }
  assert (Hc : forall p, inb row column p -> cell b0 p = if existsb (fun '(c, d) => posb (place c d) p) l then -1 else 0).
  { intros p Hp. unfold b0. rewrite (@marked_cell l (mkboard row column 0) p (rect_mkboard _ _ _) Hl). destruct (existsb _ _); auto. now apply cell_mkboard. }
  assert (Hmine : forall p, inb row column p -> is_mine b0 p = true <-> In p (map (fun '(c, d) => place c d) l)).
  { intros p Hp. unfold is_mine. rewrite Hc by auto. rewrite <- Hin. destruct (existsb _ _); cbn; intuition discriminate. }
  assert (Hinb : Forall (inb row column) (map (fun '(c, d) => place c d) l)).
  { rewrite Forall_forall in *. intros p Hp. apply in_map_iff in Hp as ([c d] & <- & Hp). exact (Hl _ Hp). }
  destruct (Nat.eq_dec row 0) as [E0|N0].
  - split; [|intros [H _]; lia]. intros H. exfalso. destruct Hr as [Hlen _]. rewrite E0 in Hlen. destruct b0; [|discriminate Hlen]. discriminate H.
  - assert (H01 : forall p, inb row column p -> cell b0 p = 0 \/ cell b0 p = -1) by (intros p Hp; rewrite Hc by auto; destruct (existsb _ _); auto).
    destruct (@cal_board_numbers_ok row column b0 Hr ltac:(lia) H01) as (b' & E & Hr' & Hc').
    assert (Hm' : forall p, inb row column p -> is_mine b' p = is_mine b0 p).
    { intros p Hp. unfold is_mine at 1. rewrite Hc' by auto. destruct (is_mine b0 p); [reflexivity|]. apply Z.eqb_neq. lia. }
    assert (Hleg : legal_board row column b').
    { split; auto. intros p Hp. rewrite Hc' by auto. destruct (is_mine b0 p); auto. right. f_equal. apply count_ext. intros q Hq. apply in_positions in Hq. now rewrite Hm'. }
    rewrite E. split.
    + intros X. injection X as <-. split; [lia|]. split; auto. split; auto. intros p Hp. rewrite Hm' by auto. auto.
    + intros (_ & Hlb & _ & Hb). f_equal. apply (@legal_unique row column); auto.
      * intros p Hp. apply eq_true_iff_eq. rewrite Hm' by auto. rewrite Hmine, Hb by auto. reflexivity.
      * intros p Hp Hn. destruct Hleg as [_ Hleg]. destruct (Hleg p Hp) as [X|X]; auto. unfold is_mine in Hn. rewrite X in Hn. discriminate Hn.
Qed.
Variables (good : Z -> Z -> bool) (put : board -> Z -> Z -> R board).
Hypothesis Hput : forall b c d, rect row column b -> byte c -> byte d ->
  if good c d then inb row column (place c d) /\ put b c d = Ok (upd b (place c d) (-1)) else forall b', put b c d <> Ok b'.
Definition mine_step (b : board) (_ : nat) : P board := get* c := get_u8 in get* d := get_u8 in plift (put b c d).

Lemma exact_mines n : forall k b, rect row column b ->
  exact (pfold mine_step (seq k n) b) (fun bs b' => exists l, bs = pairs_of l /\ length l = n /\ Forall (fun '(c, d) => good c d = true) l /\ b' = marked_board b l).
Proof.
  induction n as [|n IH]; intros k b Hr; cbn [seq pfold].
  - eapply exact_iff; [apply exact_ret|]. intros bs b' _. split.
    + intros [-> ->]. exists []. repeat split; auto.
    + intros (l & -> & L & _ & ->). destruct l; [|discriminate L]. auto.
  - eapply exact_iff.
    + eapply exact_bind with (L1 := fun bs b1 => exists c d, bs = [c; d] /\ byte c /\ byte d /\ good c d = true /\ b1 = upd b (place c d) (-1))
        (L2 := fun b1 bs b' => exists l, bs = pairs_of l /\ length l = n /\ Forall (fun '(c, d) => good c d = true) l /\ b' = marked_board b1 l).
      * unfold mine_step. eapply exact_iff; [eapply exact_bind; [apply exact_u8|]; intros ? c _ [_ Hc]; eapply exact_bind; [apply exact_u8|]; intros ? d _ [_ Hd]; apply exact_lift|].
        intros bs b1 _. split.
        -- intros (? & ? & c & -> & [-> Hc] & ? & ? & d & -> & [-> Hd] & -> & E). exists c, d. split; auto. split; auto. split; auto. pose proof (@Hput b c d Hr Hc Hd) as H.
           destruct (good c d); [|destruct (H _ E)]. destruct H as [_ H]. split; auto. congruence.
        -- intros (c & d & -> & Hc & Hd & Hg & ->). exists [c], [d], c. split; auto. split; auto. exists [d], [], d. split; auto. split; auto. split; auto.
           pose proof (@Hput b c d Hr Hc Hd) as H. rewrite Hg in H. apply H.
      * intros ? b1 _ (c & d & _ & Hc & Hd & Hg & ->). apply IH. now apply rect_upd.
    + intros bs b' Hb. split.
      * intros (? & ? & b1 & -> & (c & d & -> & Hc & Hd & Hg & ->) & l & -> & L & HF & ->). exists ((c, d) :: l). split; auto. split; [cbn; congruence|]. split; [constructor; auto|reflexivity].
      * intros (l & -> & L & HF & ->). destruct l as [|[c d] l]; [discriminate L|]. inversion HF; subst. inversion Hb as [|? ? Hc Hb1]; subst. inversion Hb1 as [|? ? Hd Hb2]; subst.
        exists [c; d], (pairs_of l), (upd b (place c d) (-1)). split; auto. split; [exists c, d; auto 7|]. exists l. cbn in L. split; auto.
Qed.
End Mines.

(** ** avf: the pieces *)
Definition avf_put (b : board) (c d : Z) : R board :=
  let* c := usub (Z.to_nat c) 1 in let* d := usub (Z.to_nat d) 1 in set b c d (-1).
Definition avf_good (row column : nat) (c d : Z) : bool := (1 <=? c) && (c <=? Z.of_nat row) && (1 <=? d) && (d <=? Z.of_nat column).
Definition avf_place (c d : Z) : pos := ((Z.to_nat c - 1)%nat, (Z.to_nat d - 1)%nat).
Lemma set_out (b : board) row column i j v : rect row column b -> ~ inb row column (i, j) -> set b i j v = Panic.
Proof.
  intros Hr Hn. unfold set. destruct (nth_error b i) as [r|] eqn:E; auto. assert (i < row)%nat by (destruct Hr as [<- _]; apply nth_error_Some; congruence).
  assert (Hl : length r = column). { destruct Hr as [_ Hr]. rewrite Forall_forall in Hr. apply Hr. now apply nth_error_In in E. }
  destruct (Nat.ltb_spec j (length r)); auto. destruct Hn. split; cbn; lia.
Qed.
Lemma avf_put_ok row column b c d : rect row column b -> byte c -> byte d ->
  if avf_good row column c d then inb row column (avf_place c d) /\ avf_put b c d = Ok (upd b (avf_place c d) (-1)) else avf_put b c d = Panic.
Proof.
  intros Hr Hc Hd. unfold byte in *. unfold avf_good, avf_put, usub. destruct ((1 <=? c) && (c <=? Z.of_nat row) && (1 <=? d) && (d <=? Z.of_nat column)) eqn:E.
  - assert (1 <= c <= Z.of_nat row /\ 1 <= d <= Z.of_nat column) by lia. clear E. destruct (Nat.leb_spec 1 (Z.to_nat c)); [|lia]. destruct (Nat.leb_spec 1 (Z.to_nat d)); [|lia]. cbn [bind].
    assert (Hi : inb row column (avf_place c d)) by (split; cbn; lia). split; auto. apply (set_ok _ Hr Hi).
  - destruct (Nat.leb_spec 1 (Z.to_nat c)); [|reflexivity]. cbn [bind]. destruct (Nat.leb_spec 1 (Z.to_nat d)); [|reflexivity]. cbn [bind].
    apply (@set_out b row column); auto. intros [H1 H2]. cbn in *. lia.
Qed.
Lemma avf_mine_step b i raw o : avf_mine b i raw o = mine_step avf_put b i raw o.
Proof.
  unfold avf_mine, mine_step, pbind, avf_put, plift. destruct (get_u8 raw o) as [[c|e| |] o1]; auto. destruct (get_u8 raw o1) as [[d|e| |] o2]; auto.
  destruct (usub (Z.to_nat c) 1); auto. cbn [bind]. destruct (usub (Z.to_nat d) 1); auto.
Qed.
Lemma avf_pairs row column l : bytes (pairs_of l) -> Forall (fun '(c, d) => avf_good row column c d = true) l ->
  pairs_of l = avf_mines (map (fun '(c, d) => avf_place c d) l) /\ Forall (fun '(c, d) => inb row column (avf_place c d)) l.
Proof.
  induction l as [|[c d] l IH]; intros Hb Hg; [auto|]. inversion Hg as [|? ? G Hg']; subst. inversion Hb as [|? ? Hc Hb1]; subst. inversion Hb1 as [|? ? Hd Hb2]; subst. destruct (IH Hb2 Hg') as [E F].
  unfold avf_good in G. assert (1 <= c <= Z.of_nat row /\ 1 <= d <= Z.of_nat column) by lia. split.
  - cbn [map]. unfold avf_mines in *. cbn [flat_map pairs_of]. unfold pairs_of in *. cbn [flat_map]. rewrite E. cbn [fst snd avf_place app]. f_equal; [lia|f_equal; lia].
  - constructor; auto. split; cbn; lia.
Qed.
Lemma avf_unpairs row column mines : Forall (inb row column) mines ->
  exists l, avf_mines mines = pairs_of l /\ length l = length mines /\ Forall (fun '(c, d) => avf_good row column c d = true) l /\ map (fun '(c, d) => avf_place c d) l = mines.
Proof.
  induction mines as [|[i j] mines IH]; intros H; [exists []; auto|]. inversion H as [|? ? [H1 H2] H3]; subst. cbn [fst snd] in *. destruct (IH H3) as (l & E & L & F & M).
  exists ((Z.of_nat i + 1, Z.of_nat j + 1) :: l). split; [unfold avf_mines, pairs_of in *; cbn [flat_map]; now rewrite E|]. split; [cbn; congruence|]. split.
  - constructor; auto. unfold avf_good. lia.
  - cbn [map]. rewrite M. f_equal. unfold avf_place. f_equal; lia.
Qed.
Lemma exact_avf_board n row column : exact (get* b := pfold avf_mine (seq 0 n) (mkboard row column 0) in plift (cal_board_numbers b))
  (fun bs b => (1 <= row)%nat /\ exists mines, bs = avf_mines mines /\ length mines = n /\ board_of row column mines b).
Proof.
  eapply exact_iff.
  - eapply exact_bind; [|intros ? b _ _; apply exact_lift]. eapply exact_ext; [intros raw o; apply (pfold_ext (fun s a o => avf_mine_step s a raw o))|].
    apply (@exact_mines row column avf_place (avf_good row column) avf_put); [|apply rect_mkboard]. intros b c d Hr Hc Hd. pose proof (avf_put_ok Hr Hc Hd) as H. destruct (avf_good _ _ _ _); auto. intros b' E. congruence.
  - intros bs b Hb. split.
    + intros (b1 & b2 & a & -> & (l & -> & L & HF & ->) & -> & E). rewrite app_nil_r in *. destruct (avf_pairs Hb HF) as [Ep Hin]. apply (@numbers_exact row column avf_place l b Hin) in E as [H0 HB].
      split; auto. exists (map (fun '(c, d) => avf_place c d) l). split; auto. split; [now rewrite map_length|exact HB].
    + intros (H0 & mines & -> & L & HB). pose proof HB as (_ & Hin & _). destruct (avf_unpairs Hin) as (l & E & L2 & F & M). exists (pairs_of l), [], (marked_board avf_place (mkboard row column 0) l).
      split; [now rewrite app_nil_r|]. split; [exists l; split; auto; split; [congruence|auto]|]. split; auto. rewrite E in Hb. destruct (avf_pairs Hb F) as [_ Hin2]. apply (@numbers_exact row column avf_place l b Hin2). rewrite M. auto.
Qed.

Lemma avf_kind_codes c k : avf_kind c = Some k <-> In (c, k) avf_codes.
Proof.
  split.
  - unfold avf_kind. intros H. repeat (match type of H with (if ?a =? ?b then _ else _) = _ => destruct (Z.eqb_spec a b) as [->|_] end; [injection H as <-; cbn; tauto|]). discriminate H.
  - intros H. cbn in H. decompose [or] H; try contradiction; match goal with X : _ = (c, k) |- _ => injection X as <- <- end; reflexivity.
Qed.
(** one event *)
Definition rec_event (bf : list Z) (e : vev) : Prop := exists k, avf_kind (nth 0 bf 0) = Some k /\
  e = VEv k (Z.lor (Z.shiftl (nth 6 bf 0) 8) (nth 2 bf 0) * 1000 - 1000 + nth 4 bf 0 * 10)
            (Z.lor (Z.shiftl (nth 1 bf 0) 8) (nth 3 bf 0)) (Z.lor (Z.shiftl (nth 5 bf 0) 8) (nth 7 bf 0)).
Lemma rec_event_iff bf e : bytes bf -> length bf = 8%nat -> (rec_event bf e <-> avf_record bf e).
Proof.
  intros Hb L. do 8 (destruct bf as [|? bf]; [discriminate L|]). destruct bf; [|discriminate L]. repeat match goal with H : bytes (_ :: _) |- _ => inversion H; clear H; subst | H : Forall byte (_ :: _) |- _ => inversion H; clear H; subst end.
  unfold rec_event, avf_record. cbn [nth]. rewrite !lor16 by auto. split.
  - intros (k & Hk & ->). apply avf_kind_codes in Hk. do 9 eexists. split; [reflexivity|]. split; [exact Hk|]. f_equal. lia.
  - intros (k & c & x1 & s0 & x0 & hs & y1 & s1 & y0 & E & Hk & ->). injection E as -> -> -> -> -> -> -> ->. exists k. split; [now apply avf_kind_codes|]. f_equal. lia.
Qed.
Definition endb (r : list Z) : bool := (nth 2 r 0 =? 0) && (nth 6 r 0 =? 0).
Definition ev_lang (s : list vev * list Z) (bs : list Z) (r : (list vev * list Z) + list vev) : Prop :=
  exists e, rec_event (snd s) e /\ length bs = 8%nat /\ r = if endb bs then inr (fst s ++ [e]) else Datatypes.inl (fst s ++ [e], bs).
Lemma exact_avf_event s : exact (avf_event s) (ev_lang s).
Proof.
  destruct s as [acc bf]. unfold avf_event, ev_lang. cbn [fst snd]. destruct (avf_kind (nth 0 bf 0)) as [k|] eqn:Ek.
  - set (e := VEv _ _ _ _). eapply exact_iff.
    + eapply exact_bind; [apply exact_take|]. intros ? r _ _. instantiate (1 := fun r bs x => bs = [] /\ x = if endb r then inr (acc ++ [e]) else Datatypes.inl (acc ++ [e], r)). cbn beta.
      change ((nth 2 r 0 =? 0) && (nth 6 r 0 =? 0)) with (endb r). destruct (endb r); apply exact_ret.
    + intros bs x _. split.
      * intros (b1 & b2 & r & -> & [L ->] & -> & ->). rewrite app_nil_r. eexists. split; [exists k; split; [exact Ek|reflexivity]|]. auto.
      * intros (e' & (k' & Ek' & ->) & L & ->). rewrite Ek in Ek'. injection Ek' as <-. exists bs, [], bs. rewrite app_nil_r. auto.
  - intros raw o a o' _. split; [intros X; discriminate X|]. intros (bs & _ & _ & e & (k & E & _) & _). rewrite Ek in E. discriminate E.
Qed.
Lemma ev_rounds s bs l : rounds ev_lang s bs l <-> exists recs last es, bs = concat recs ++ last /\ Forall (fun r => length r = 8%nat /\ endb r = false) recs /\
  length last = 8%nat /\ endb last = true /\ Forall2 rec_event (snd s :: recs) es /\ l = fst s ++ es.
Proof.
  split.
  - induction 1 as [s bs l (e & He & L & E)|s b1 b2 s' l (e & He & L & E) HR IH].
    + destruct (endb bs) eqn:En; [|discriminate E]. injection E as ->. exists [], bs, [e]. repeat (split; auto).
    + destruct (endb b1) eqn:En; [discriminate E|]. injection E as ->. cbn [fst snd] in IH. destruct IH as (recs & last & es & -> & F & L2 & E2 & F2 & ->).
      exists (b1 :: recs), last, (e :: es). split; [cbn; now rewrite app_assoc|]. split; auto. split; auto. split; auto. split; auto. now rewrite <- app_assoc.
  - intros (recs & last & es & -> & F & L2 & E2 & F2 & ->). destruct s as [acc bf]. cbn [fst snd] in *. revert acc bf es F2. induction F as [|r recs [Lr Er] F IH]; intros acc bf es F2.
    + inversion F2 as [|? e ? es' He F2']; subst. inversion F2'; subst. apply rounds_end. exists e. cbn [fst snd concat app]. split; auto. split; auto. now rewrite E2.
    + inversion F2 as [|? e ? es' He F2']; subst. cbn [concat]. rewrite <- app_assoc. apply rounds_next with (s' := (acc ++ [e], r)).
      * exists e. cbn [fst snd]. split; auto. split; auto. now rewrite Er.
      * replace (acc ++ e :: es') with ((acc ++ [e]) ++ es') by now rewrite <- app_assoc. now apply IH.
Qed.
Lemma exact_avf_events s : exact (loop avf_event s) (fun bs l => exists recs last es, bs = concat recs ++ last /\ Forall (fun r => length r = 8%nat /\ endb r = false) recs /\
  length last = 8%nat /\ endb last = true /\ Forall2 rec_event (snd s :: recs) es /\ l = fst s ++ es).
Proof.
  eapply exact_iff; [apply (@exact_loop _ _ avf_event ev_lang exact_avf_event)|intros; apply ev_rounds].
  intros s0 bs a (e & _ & L & _) E. subst. discriminate L.
Qed.

(** numbers in decimal *)
Lemma digits_value_none l : fold_left (fun acc c => match acc with Some a => if (48 <=? c) && (c <=? 57) then Some (a * 10 + (c - 48)) else None | None => None end) l None = None.
Proof. induction l; auto. Qed.
Lemma digits_value_iff l : forall a v, fold_left (fun acc c => match acc with Some a => if (48 <=? c) && (c <=? 57) then Some (a * 10 + (c - 48)) else None | None => None end) l (Some a) = Some v <->
  Forall (fun c => 48 <= c <= 57) l /\ v = fold_left (fun a c => a * 10 + (c - 48)) l a.
Proof.
  induction l as [|c l IH]; intros a v; cbn [fold_left].
  - split; [intros E; injection E as <-; auto|intros [_ ->]; auto].
  - destruct ((48 <=? c) && (c <=? 57)) eqn:E.
    + rewrite IH. split; intros [H1 H2]; split; auto; [constructor; auto; lia|now inversion H1].
    + rewrite digits_value_none. split; [intros X; discriminate X|]. intros [H _]. inversion H; subst. lia.
Qed.
Lemma parse_usize_iff l v : parse_usize l = Some v <-> usize_text l v.
Proof.
  unfold parse_usize, usize_text.
  assert (D : forall l, match l with [] => None | _ => match digits_value l with Some v => if v <? 2 ^ 64 then Some v else None | None => None end end = Some v <-> decimal l v).
  { clear. intros l. unfold decimal. destruct l as [|c l]; [split; [intros X; discriminate X|intros [X _]; contradiction]|].
    destruct (digits_value (c :: l)) as [w|] eqn:E.
    - apply digits_value_iff in E as [F Ew]. destruct (Z.ltb_spec w (2 ^ 64)).
      + split; [intros X; injection X as <-; split; [discriminate|auto]|]. intros (_ & _ & -> & _). now rewrite Ew.
      + split; [intros X; discriminate X|]. intros (_ & _ & -> & X). lia.
    - split; [intros X; discriminate X|]. intros (_ & F & Ev & _). enough (digits_value (c :: l) = Some v) by congruence. apply digits_value_iff. auto. }
  destruct l as [|c l]; [refine (iff_trans (D []) _); split; [auto|intros [H|(l' & X & _)]; [auto|discriminate X]]|]. destruct (Z.eqb_spec c 43) as [->|Hc].
  - refine (iff_trans (D l) _). split; [intros H; right; eauto|]. intros [(_ & F & _)|(l' & X & H)]; [inversion F; lia|]. injection X as <-. exact H.
  - refine (iff_trans (D (c :: l)) _). split; [auto|]. intros [H|(l' & X & _)]; auto. congruence.
Qed.
