(** * OldRmv: the rmv parser accepts exactly the format; where it crashes; files cut short. *)
From Verif Require Import Base Spec BaseFacts LayMine LayMineProofs MineBoard Evf EvfSpec EvfProofs EvfSafe OldVideos OldSpec OldLib OldAvf OldAvfMain OldSafe OldAvfSafe.
Open Scope Z_scope.

Lemma exact_be16 : exact get_u16 (fun bs x => bs = be16 x /\ u16 x).
Proof.
  eapply exact_iff; [apply exact_u16|]. intros bs x Hb. unfold be16, u16. split.
  - intros (a & b & -> & Ha & Hb' & ->). unfold byte in *. split; [|lia]. rewrite Z.div_add_l, (Z.div_small b), Z.add_0_r by lia. rewrite Z.add_comm, Z.mod_add, Z.mod_small by lia. reflexivity.
  - intros [-> Hx]. exists (x / 256), (x mod 256). split; auto. inversion Hb as [|? ? Ha Hb1]; subst. inversion Hb1; subst. split; auto. split; auto. rewrite Z.mul_comm. apply Z.div_mod. lia.
Qed.
Lemma exact_bind4 {A1 A2 A3 A4 B} (p : P (A1 * A2 * A3 * A4)) (k : A1 -> A2 -> A3 -> A4 -> P B) L1 L2 : exact p L1 -> (forall bs a1 a2 a3 a4, bytes bs -> L1 bs (a1, a2, a3, a4) -> exact (k a1 a2 a3 a4) (L2 a1 a2 a3 a4)) ->
  exact (pbind p (fun '(a1, a2, a3, a4) => k a1 a2 a3 a4)) (fun bs b => exists b1 b2 a1 a2 a3 a4, bs = b1 ++ b2 /\ L1 b1 (a1, a2, a3, a4) /\ L2 a1 a2 a3 a4 b2 b).
Proof.
  intros H1 H2. eapply exact_iff; [eapply (exact_bind (L2 := fun '(a1, a2, a3, a4) => L2 a1 a2 a3 a4)); [exact H1|]|].
  - intros bs [[[a1 a2] a3] a4] Hb HL. eauto.
  - intros bs b _. split; [intros (b1 & b2 & [[[a1 a2] a3] a4] & H); eauto 8|intros (b1 & b2 & a1 & a2 & a3 & a4 & H); exists b1, b2, (a1, a2, a3, a4); auto].
Qed.
Lemma crash_bind4 {A1 A2 A3 A4 B} (p : P (A1 * A2 * A3 * A4)) (k : A1 -> A2 -> A3 -> A4 -> P B) L1 C1 C2 : exact p L1 -> crash p C1 -> (forall bs a1 a2 a3 a4, bytes bs -> L1 bs (a1, a2, a3, a4) -> crash (k a1 a2 a3 a4) (C2 a1 a2 a3 a4)) ->
  crash (pbind p (fun '(a1, a2, a3, a4) => k a1 a2 a3 a4)) (fun bs => C1 bs \/ exists b1 b2 a1 a2 a3 a4, bs = b1 ++ b2 /\ L1 b1 (a1, a2, a3, a4) /\ C2 a1 a2 a3 a4 b2).
Proof.
  intros H1 HC H2. eapply crash_iff; [eapply (crash_bind (C2 := fun '(a1, a2, a3, a4) => C2 a1 a2 a3 a4)); [exact H1|exact HC|]|].
  - intros bs [[[a1 a2] a3] a4] Hb HL. eauto.
  - intros bs _. apply or_iff_compat_l. split; [intros (b1 & b2 & [[[a1 a2] a3] a4] & H); eauto 8|intros (b1 & b2 & a1 & a2 & a3 & a4 & H); exists b1, b2, (a1, a2, a3, a4); auto].
Qed.

(** ** the header *)
Lemma exact_expect c p L : exact p L -> exact (expect c p) (fun bs (_ : unit) => L bs c).
Proof.
  intros H raw o [] o' Hb. rewrite <- (H raw o c o' Hb). unfold expect. destruct (p raw o) as [[v|e| |] o1]; try (split; intros X; discriminate X).
  destruct (Z.eqb_spec v c) as [->|N]; split; intros X; try discriminate X; injection X as <-; [reflexivity|reflexivity|contradiction].
Qed.
Lemma calm_expect c p : crash (expect c p) never.
Proof. apply calm_intro. intros raw o _. unfold expect. destruct (p raw o) as [[v|e| |] o1]; cbn; try (split; discriminate). destruct (v =? c); split; discriminate. Qed.
Lemma det_expect c p : det p -> det (expect c p).
Proof.
  intros H raw post o Hb. unfold expect. destruct (H raw post o Hb) as [E|[e E]]; [rewrite E; auto|]. right. destruct (p raw o) as [[v|e'| |] o1]; cbn in E; try discriminate E. eexists. reflexivity.
Qed.
Lemma exact_header : exact rmv_header (fun bs r => let '(rs, vs, fs, ps) := r in rmv_head rs vs fs ps bs).
Proof.
  unfold rmv_header. apply exact_first. eapply exact_iff.
  - eapply exact_bind; [apply exact_u8|]. intros ? v _ _. cbn beta. eapply exact_bind; [apply exact_lift|]. intros ? ? _ _.
    eapply exact_bind; [apply exact_expect, exact_u8|]. intros ? ? _ _. eapply exact_bind; [apply exact_expect, exact_u8|]. intros ? ? _ _. eapply exact_bind; [apply exact_expect, exact_u8|]. intros ? ? _ _.
    eapply exact_bind; [apply exact_expect, exact_be16|]. intros ? ? _ _. apply exact_skip.
    + eapply exact_bind; [apply exact_be16|]. intros ? rs _ _. eapply exact_bind; [apply exact_be16|]. intros ? vs _ _. apply exact_skip.
      * eapply exact_bind; [apply exact_be16|]. intros ? fs _ _. eapply exact_bind; [apply exact_be16|]. intros ? ps _ _. apply exact_ret.
      * apply strict_bind. intros ? ? [-> _]. discriminate.
    + apply strict_bind. intros ? ? [-> _]. discriminate.
  - intros bs [[[rs vs] fs] ps] Hb. cbn beta. unfold rmv_head. split.
    + intros (? & ? & v & -> & [-> _] & ? & ? & [] & -> & [-> E42] & ? & ? & [] & -> & [-> _] & ? & ? & [] & -> & [-> _] & ? & ? & [] & -> & [-> _] & ? & ? & [] & -> & [-> _] & j1 & ? & -> & H1
        & ? & ? & rs' & -> & [-> Hrs] & ? & ? & vs' & -> & [-> Hvs] & j2 & ? & -> & H2 & ? & ? & fs' & -> & [-> Hfs] & ? & ? & ps' & -> & [-> Hps] & -> & E).
      injection E as -> -> -> ->. destruct (Z.eqb_spec v 42) as [->|]; [|discriminate E42]. exists j1, j2. cbn [app]. rewrite app_nil_r. change (be16 1) with [0; 1]. cbn [app]. auto 10.
    + intros (j1 & j2 & -> & H1 & H2 & Hrs & Hvs & Hfs & Hps). assert (forall x, 0 <= x < 256 -> byte x) by (unfold byte; auto).
      exists [42]. eexists. exists 42. split; [reflexivity|]. split; [split; auto; apply H; lia|]. exists []. eexists. exists tt. split; [reflexivity|]. split; [auto|].
      exists [114]. eexists. exists tt. split; [reflexivity|]. split; [split; auto; apply H; lia|]. exists [109]. eexists. exists tt. split; [reflexivity|]. split; [split; auto; apply H; lia|]. exists [118]. eexists. exists tt. split; [reflexivity|]. split; [split; auto; apply H; lia|].
      exists [0; 1]. eexists. exists tt. split; [reflexivity|]. split; [split; [reflexivity|unfold u16; lia]|]. exists j1. eexists. split; [reflexivity|]. split; [auto|].
      exists (be16 rs). eexists. exists rs. split; [reflexivity|]. split; [auto|]. exists (be16 vs). eexists. exists vs. split; [reflexivity|]. split; [auto|]. exists j2. eexists. split; [reflexivity|]. split; [auto|].
      exists (be16 fs). eexists. exists fs. split; [reflexivity|]. split; [auto|]. exists (be16 ps), [], ps. split; [now rewrite app_nil_r|]. auto.
Qed.
Lemma header_calm : crash rmv_header never /\ det rmv_header.
Proof.
  unfold rmv_header. split.
  - apply crash_first. apply calm_bind; [apply crash_u8|]. intros v. apply calm_bind; [apply calm_intro; intros; destruct (v =? 42); cbn; split; discriminate|intros]. do 4 (apply calm_bind; [apply calm_expect|intros]). apply calm_skip.
    do 2 (apply calm_bind; [apply crash_u16|intros]). apply calm_skip. do 2 (apply calm_bind; [apply crash_u16|intros]). apply crash_ret.
  - apply det_first. intros v. apply det_bind; [apply det_lift|intros]. do 3 (apply det_bind; [apply det_expect, det_u8|intros]). apply det_bind; [apply det_expect, det_u16|intros]. apply det_bind; [apply det_skip|intros].
    do 2 (apply det_bind; [apply det_u16|intros]). apply det_bind; [apply det_skip|intros]. do 2 (apply det_bind; [apply det_u16|intros]). apply det_ret.
Qed.

(** ** the strings *)
Lemma exact_string n k : exact (rmv_string n k) (fun bs s => rmv_text (k <? n) bs s).
Proof.
  unfold rmv_string, rmv_text. destruct (k <? n); [|apply exact_ret]. eapply exact_iff; [eapply exact_bind; [apply exact_u8|]; intros ? l _ _; apply exact_take|]. intros bs s Hb. unfold counted. split.
  - intros (? & b & l & -> & [-> Hl] & Hlen & ->). cbn [app]. f_equal. rewrite Hlen. unfold byte in Hl. lia.
  - intros ->. inversion Hb as [|? ? Hl Hb']; subst. exists [Z.of_nat (length s)], s, (Z.of_nat (length s)). split; auto. split; auto. split; auto. now rewrite Nat2Z.id.
Qed.
Lemma string_calm n k : crash (rmv_string n k) never /\ det (rmv_string n k).
Proof.
  unfold rmv_string. destruct (k <? n); [|split; [apply crash_ret|apply det_ret]]. split; [apply calm_bind; [apply crash_u8|intros; apply crash_take]|apply det_bind; [apply det_u8|intros; apply det_take]].
Qed.
Lemma digits_usize s v : Forall (fun c => 48 <= c <= 57) s -> (parse_usize s = Some v <-> decimal s v).
Proof.
  intros F. rewrite parse_usize_iff. unfold usize_text. split; [|auto]. intros [H|(l & -> & _)]; auto. inversion F; lia.
Qed.
Lemma filter_digits s : Forall (fun c => 48 <= c <= 57) (filter (fun c => (48 <=? c) && (c <=? 57)) s).
Proof. apply Forall_forall. intros c H. apply filter_In in H as [_ H]. lia. Qed.
Lemma usubZ_ok a b v : usubZ a b = Ok v <-> b <= a /\ v = a - b.
Proof. unfold usubZ. destruct (Z.leb_spec b a); split; [intros X; injection X as <-; auto|intros [_ ->]; auto|intros X; discriminate X|lia]. Qed.
Definition info_part (rs : Z) : P (Z * list Z) :=
    if 35 <? rs then
       get* _ := skip (Z.to_nat (rs - 32)) in
       get* s := take 3 in
       get* bbbv := plift (match parse_usize (filter (fun c => (48 <=? c) && (c <=? 57)) s) with
                           | Some v => Ok v | None => Err InvalidParams end) in
       get* _ := skip 16 in
       get* start := take 10 in
       pret (bbbv, start)
     else
       get* n := plift (usubZ rs 3) in
       get* _ := take (Z.to_nat n) in
       pret (0, []).
Lemma exact_info rs : exact (info_part rs) (fun bs r => rmv_info rs bs (fst r) (snd r)).
Proof.
  unfold info_part, rmv_info. destruct (Z.ltb_spec 35 rs) as [H35|H35].
  - eapply exact_iff.
    + apply exact_skip.
      * eapply exact_bind; [apply exact_take|]. intros ? s _ _. eapply exact_bind; [apply exact_option|]. intros ? bbbv _ _. apply exact_skip.
        -- eapply exact_bind; [apply exact_take|]. intros ? start _ _. apply exact_ret.
        -- apply strict_bind. intros ? ? [L _] ->. discriminate L.
      * apply strict_bind. intros ? ? [L _] ->. discriminate L.
    + intros bs [bbbv start] _. cbn [fst snd]. split.
      * intros (j & ? & -> & Hj & s & ? & ? & -> & [Hs ->] & ? & ? & v & -> & [-> Hv] & k & ? & -> & Hk & st & ? & ? & -> & [Hst ->] & -> & E). injection E as -> ->. left. split; auto.
        apply digits_usize in Hv; [|apply filter_digits]. exists j, s, k. rewrite app_nil_r. cbn [app]. auto 8.
      * intros [(_ & j & s & k & -> & Hj & Hs & Hk & Hst & Hd)|(X & _)]; [|lia].
        exists j. eexists. split; [reflexivity|]. split; auto. exists s. eexists. exists s. split; [reflexivity|]. split; auto. exists []. eexists. exists bbbv. split; [reflexivity|]. split; [split; auto; apply digits_usize; auto; apply filter_digits|].
        exists k. eexists. split; [reflexivity|]. split; auto. exists start, [], start. split; [now rewrite app_nil_r|]. auto.
  - eapply exact_iff.
    + eapply exact_bind; [apply exact_lift|]. intros ? n _ _. eapply exact_bind; [apply exact_take|]. intros ? ? _ _. apply exact_ret.
    + intros bs [bbbv start] _. cbn [fst snd]. split.
      * intros (? & ? & n & -> & [-> Hn] & x & ? & ? & -> & [Hx ->] & -> & E). injection E as -> ->. right. apply usubZ_ok in Hn as [H3 ->]. rewrite app_nil_r. cbn [app]. split; [lia|auto].
      * intros [(X & _)|(H3 & Hl & -> & ->)]; [lia|]. exists [], bs, (rs - 3). split; auto. split; [split; auto; apply usubZ_ok; auto; lia|]. exists bs, [], bs. split; [now rewrite app_nil_r|]. auto.
Qed.
Lemma exact_texts rs vs : exact (rmv_texts rs vs) (fun bs r => let '(bbbv, start, player, country) := r in rmv_strings rs vs bs bbbv start player country).
Proof.
  unfold rmv_texts. fold (info_part rs). eapply exact_iff.
  - apply exact_skip.
    + eapply exact_bind2; [apply exact_info|]. intros ? bbbv start _ _. apply exact_skip.
      * eapply exact_bind; [apply exact_be16|]. intros ? n _ _.
        eapply exact_bind; [apply exact_string|]. intros ? player _ _. eapply exact_bind; [apply exact_string|]. intros ? nick _ _. eapply exact_bind; [apply exact_string|]. intros ? country _ _. eapply exact_bind; [apply exact_string|]. intros ? token _ _.
        apply exact_ret.
      * apply strict_bind. intros ? ? [-> _]. discriminate.
    + intros z r (? & ? & ? & ? & -> & _ & ? & ? & -> & _ & ? & ? & ? & -> & [-> _] & _). intros E. apply app_eq_nil in E as [_ E]. apply app_eq_nil in E as [_ E]. discriminate E.
  - intros bs [[[bbbv start] player] country] _. cbn beta. unfold rmv_strings. cbn [fst snd]. split.
    + intros (j7 & ? & -> & H7 & info & ? & bbbv' & start' & -> & Hi & jv & ? & -> & Hv & ? & ? & n & -> & [-> Hn] & b1 & ? & p1 & -> & T1 & b2 & ? & nick & -> & T2 & b3 & ? & c1 & -> & T3 & b4 & ? & token & -> & T4 & -> & E).
      injection E as -> -> -> ->. exists j7, info, jv, n, b1, b2, nick, b3, b4, token. rewrite app_nil_r. auto 12.
    + intros (j7 & info & jv & n & b1 & b2 & nick & b3 & b4 & token & -> & H7 & Hi & Hv & Hn & T1 & T2 & T3 & T4).
      exists j7. eexists. split; [reflexivity|]. split; auto. exists info. eexists. exists bbbv, start. split; [reflexivity|]. split; auto. exists jv. eexists. split; [reflexivity|]. split; auto.
      exists (be16 n). eexists. exists n. split; [reflexivity|]. split; auto. exists b1. eexists. exists player. split; [reflexivity|]. split; auto. exists b2. eexists. exists nick. split; [reflexivity|]. split; auto.
      exists b3. eexists. exists country. split; [reflexivity|]. split; auto. exists b4, [], token. split; [now rewrite app_nil_r|]. auto.
Qed.
Lemma texts_crash rs vs : crash (rmv_texts rs vs) (fun bs => rs < 3 /\ bs = []).
Proof.
  destruct (Z.lt_ge_cases rs 3) as [H3|H3].
  - intros raw o Hb. assert (E : fst (rmv_texts rs vs raw o) = Panic).
    { unfold rmv_texts, pbind, skip. destruct (Z.ltb_spec 35 rs); [lia|]. unfold plift, usubZ. destruct (Z.leb_spec 3 rs); [lia|]. reflexivity. }
    rewrite E. split; [discriminate|]. split; auto. intros _. exists []. split; [apply seg_nil|auto].
  - eapply crash_iff with (C := never); [|intros bs _; unfold never; lia]. unfold rmv_texts. apply calm_skip. apply calm_bind.
    + destruct (35 <? rs).
      * apply calm_skip. apply calm_bind; [apply crash_take|intros]. apply calm_bind; [apply calm_lift_option|intros]. apply calm_skip. apply calm_bind; [apply crash_take|intros]. apply crash_ret.
      * apply calm_bind; [apply calm_intro; intros; cbn; unfold usubZ; destruct (Z.leb_spec 3 rs); [split; discriminate|lia]|intros]. apply calm_bind; [apply crash_take|intros]. apply crash_ret.
    + intros [? ?]. apply calm_skip. apply calm_bind; [apply crash_u16|intros]. do 4 (apply calm_bind; [apply string_calm|intros]). apply crash_ret.
Qed.
Lemma texts_det rs vs : det (rmv_texts rs vs).
Proof.
  unfold rmv_texts. apply det_bind; [apply det_skip|intros _]. apply det_bind.
  - destruct (35 <? rs).
    + apply det_bind; [apply det_skip|intros]. apply det_bind; [apply det_take|intros]. apply det_bind; [apply det_lift|intros]. apply det_bind; [apply det_skip|intros]. apply det_bind; [apply det_take|intros]. apply det_ret.
    + apply det_bind; [apply det_lift|intros]. apply det_bind; [apply det_take|intros]. apply det_ret.
  - intros [? ?]. apply det_bind; [apply det_skip|intros]. apply det_bind; [apply det_u16|intros]. do 4 (apply det_bind; [apply string_calm|intros]). apply det_ret.
Qed.

(** ** size and board *)
Lemma exact_size : exact rmv_size (fun bs r => let '(w, h, m) := r in exists j, bs = j ++ [Z.of_nat w; Z.of_nat h] ++ be16 m /\ length j = 4%nat /\ u16 m).
Proof.
  unfold rmv_size. eapply exact_iff.
  - apply exact_skip.
    + eapply exact_bind; [apply exact_u8|]. intros ? w _ _. eapply exact_bind; [apply exact_u8|]. intros ? h _ _. eapply exact_bind; [apply exact_be16|]. intros ? m _ _. apply exact_ret.
    + apply strict_bind. intros ? ? [-> _]. discriminate.
  - intros bs [[w h] m] Hb. cbn beta. split.
    + intros (j & ? & -> & Hj & ? & ? & w' & -> & [-> Hw] & ? & ? & h' & -> & [-> Hh] & ? & ? & m' & -> & [-> Hm] & -> & E). injection E as -> -> ->. exists j. unfold byte in *. rewrite !Z2Nat.id by lia. rewrite app_nil_r. cbn [app]. auto.
    + intros (j & -> & Hj & Hm). repeat rewrite ?bytes_cons_iff, ?bytes_app_iff in Hb. exists j. eexists. split; [reflexivity|]. split; auto. exists [Z.of_nat w]. eexists. exists (Z.of_nat w). split; [reflexivity|]. split; [tauto|].
      exists [Z.of_nat h]. eexists. exists (Z.of_nat h). split; [reflexivity|]. split; [tauto|]. exists (be16 m), [], m. split; [now rewrite app_nil_r|]. split; auto. split; auto. now rewrite !Nat2Z.id.
Qed.
Lemma size_calm : crash rmv_size never /\ det rmv_size.
Proof.
  unfold rmv_size. split.
  - apply calm_skip. do 2 (apply calm_bind; [apply crash_u8|intros]). apply calm_bind; [apply crash_u16|intros]. apply crash_ret.
  - apply det_bind; [apply det_skip|intros]. do 2 (apply det_bind; [apply det_u8|intros]). apply det_bind; [apply det_u16|intros]. apply det_ret.
Qed.
Definition rmv_put (w h : nat) (b : board) (c d : Z) : R board :=
  if (w <=? Z.to_nat c)%nat || (h <=? Z.to_nat d)%nat then Err InvalidMinePosition else set b (Z.to_nat d) (Z.to_nat c) (-1).
Definition rmv_good (w h : nat) (c d : Z) : bool := negb ((w <=? Z.to_nat c)%nat || (h <=? Z.to_nat d)%nat).
Definition rmv_place (c d : Z) : pos := (Z.to_nat d, Z.to_nat c).
Lemma rmv_put_ok row column b c d : rect row column b -> byte c -> byte d ->
  if rmv_good column row c d then inb row column (rmv_place c d) /\ rmv_put column row b c d = Ok (upd b (rmv_place c d) (-1)) else rmv_put column row b c d = Err InvalidMinePosition.
Proof.
  intros Hr Hc Hd. unfold rmv_good, rmv_put. destruct ((column <=? Z.to_nat c)%nat || (row <=? Z.to_nat d)%nat) eqn:E; cbn [negb]; auto.
  assert (Hi : inb row column (rmv_place c d)) by (split; cbn; lia). split; auto. apply (set_ok _ Hr Hi).
Qed.
Lemma rmv_board_ext w h n b : forall raw o, (get* b := pfold (rmv_mine w h) (seq 0 n) b in plift (cal_board_numbers b)) raw o = (get* b := pfold (mine_step (rmv_put w h)) (seq 0 n) b in plift (cal_board_numbers b)) raw o.
Proof.
  intros raw o. unfold pbind. rewrite (@pfold_ext _ _ (rmv_mine w h) (mine_step (rmv_put w h)) raw); [reflexivity|]. intros s a o0. unfold rmv_mine, mine_step, pbind, rmv_put, plift. destruct (get_u8 raw o0) as [[c|e| |] o1]; auto. destruct (get_u8 raw o1) as [[d|e| |] o2]; auto.
  destruct ((w <=? Z.to_nat c)%nat || (h <=? Z.to_nat d)%nat); auto.
Qed.
Lemma rmv_pairs l w h : bytes (pairs_of l) -> Forall (fun '(c, d) => rmv_good w h c d = true) l ->
  pairs_of l = rmv_mines (map (fun '(c, d) => rmv_place c d) l) /\ Forall (inb h w) (map (fun '(c, d) => rmv_place c d) l).
Proof.
  induction l as [|[c d] l IH]; intros Hb Hg; [split; [reflexivity|constructor]|]. inversion Hg as [|? ? G Hg']; subst. inversion Hb as [|? ? Hc Hb1]; subst. inversion Hb1 as [|? ? Hd Hb2]; subst. destruct (IH Hb2 Hg') as [E F].
  unfold byte, rmv_good in *. split.
  - cbn [map]. unfold rmv_mines, pairs_of in *. cbn [flat_map]. rewrite E. cbn [fst snd rmv_place app]. f_equal; [lia|f_equal; lia].
  - cbn [map]. constructor; auto. split; cbn; lia.
Qed.
Lemma rmv_unpairs w h mines : Forall (inb h w) mines ->
  exists l, rmv_mines mines = pairs_of l /\ length l = length mines /\ Forall (fun '(c, d) => rmv_good w h c d = true) l /\ map (fun '(c, d) => rmv_place c d) l = mines.
Proof.
  induction mines as [|[i j] mines IH]; intros H; [exists []; auto|]. inversion H as [|? ? [H1 H2] H3]; subst. cbn [fst snd] in *. destruct (IH H3) as (l & E & L & F & M).
  exists ((Z.of_nat j, Z.of_nat i) :: l). split; [unfold rmv_mines, pairs_of in *; cbn [flat_map]; now rewrite E|]. split; [cbn; congruence|]. split.
  - constructor; auto. unfold rmv_good. lia.
  - cbn [map]. rewrite M. f_equal. unfold rmv_place. f_equal; lia.
Qed.
Lemma exact_rmv_board w h n : exact (get* b := pfold (rmv_mine w h) (seq 0 n) (mkboard h w 0) in plift (cal_board_numbers b))
  (fun bs b => (1 <= h)%nat /\ exists mines, bs = rmv_mines mines /\ length mines = n /\ board_of h w mines b).
Proof.
  eapply exact_ext; [apply rmv_board_ext|]. eapply exact_iff; [apply (@exact_board h w rmv_place (rmv_good w h) (rmv_put w h) (Err InvalidMinePosition)); [apply rmv_put_ok|discriminate]|]. intros bs b Hb. split.
  - intros (H1 & l & -> & L & HF & HB). split; auto. destruct (rmv_pairs Hb HF) as [E _]. exists (map (fun '(c, d) => rmv_place c d) l). split; auto. split; [now rewrite map_length|auto].
  - intros (H1 & mines & -> & L & HB). split; auto. pose proof HB as (_ & Hin & _). destruct (rmv_unpairs Hin) as (l & E & L2 & F & M). exists l. split; auto. split; [congruence|]. split; auto. now rewrite M.
Qed.
Lemma rmv_board_crash w h n : crash (get* b := pfold (rmv_mine w h) (seq 0 n) (mkboard h w 0) in plift (cal_board_numbers b)) (fun bs => h = 0%nat /\ n = 0%nat /\ bs = []).
Proof.
  eapply crash_ext; [apply rmv_board_ext|]. eapply crash_iff; [apply (@crash_board h w rmv_place (rmv_good w h) (rmv_put w h) (Err InvalidMinePosition)); [apply rmv_put_ok|discriminate|discriminate]|]. intros bs _. split; [intros [(X & _)|H]; [discriminate X|auto]|auto].
Qed.

(** ** flags and properties *)
Lemma exact_flag_list n : forall k acc, exact (pfold rmv_preflag (seq k n) acc) (fun bs es => exists l : list (Z * Z), length l = n /\ bs = flat_map (fun cd => [fst cd; snd cd]) l /\ es = acc ++ map (fun cd => VEv e_pf 0 (snd cd * 16) (fst cd * 16)) l).
Proof.
  induction n as [|n IH]; intros k acc; cbn [seq pfold].
  - eapply exact_iff; [apply exact_ret|]. intros bs es _. split.
    + intros [-> ->]. exists []. split; auto. split; auto. cbn. now rewrite app_nil_r.
    + intros (l & L & -> & ->). destruct l; [|discriminate L]. cbn. rewrite app_nil_r. auto.
  - eapply exact_iff.
    + eapply exact_bind; [|intros ? a _ _; apply IH]. unfold rmv_preflag. eapply exact_bind; [apply exact_u8|]. intros ? c _ _. eapply exact_bind; [apply exact_u8|]. intros ? d _ _. apply exact_ret.
    + intros bs es Hb. split.
      * intros (? & ? & a & -> & (? & ? & c & -> & [-> _] & ? & ? & d & -> & [-> _] & -> & ->) & l & L & -> & ->). exists ((c, d) :: l). split; [cbn; congruence|]. split; auto. cbn [map fst snd]. now rewrite <- app_assoc.
      * intros (l & L & -> & ->). destruct l as [|[c d] l]; [discriminate L|]. cbn [flat_map fst snd app] in Hb. rewrite !bytes_cons_iff in Hb. exists [c; d]. eexists. eexists. split; [reflexivity|]. split.
        -- exists [c], [d], c. split; auto. split; [tauto|]. exists [d], [], d. split; auto. split; [tauto|]. auto.
        -- exists l. cbn in L. split; [lia|]. split; auto. cbn [map fst snd]. now rewrite <- app_assoc.
Qed.
Lemma exact_flags fs : 0 <= fs -> exact (rmv_preflags fs) (rmv_flags fs).
Proof.
  intros H0. unfold rmv_preflags, rmv_flags. destruct (Z.ltb_spec 0 fs).
  - eapply exact_iff; [eapply exact_bind; [apply exact_be16|]; intros ? k _ _; apply exact_flag_list|]. intros bs es _. split.
    + intros (? & ? & k & -> & [-> Hk] & l & L & -> & ->). right. split; auto. exists l. unfold u16 in *. assert (E : Z.of_nat (length l) = k) by lia. rewrite E. auto.
    + intros [(X & _)|(_ & l & Hk & -> & ->)]; [lia|]. exists (be16 (Z.of_nat (length l))). eexists. exists (Z.of_nat (length l)). split; [reflexivity|]. split; auto. exists l. rewrite Nat2Z.id. auto.
  - eapply exact_iff; [apply exact_ret|]. intros bs es _. split; [left; intuition lia|]. intros [(_ & -> & ->)|(X & _)]; [auto|lia].
Qed.
Lemma flags_calm fs : crash (rmv_preflags fs) never /\ det (rmv_preflags fs).
Proof.
  unfold rmv_preflags. destruct (0 <? fs); [|split; [apply crash_ret|apply det_ret]]. split.
  - apply calm_bind; [apply crash_u16|intros]. apply calm_pfold. intros. unfold rmv_preflag. do 2 (apply calm_bind; [apply crash_u8|intros]). apply crash_ret.
  - apply det_bind; [apply det_u16|intros]. apply det_pfold. intros. unfold rmv_preflag. do 2 (apply det_bind; [apply det_u8|intros]). apply det_ret.
Qed.
Lemma exact_props ps : exact (rmv_props ps) (fun bs r => let '(nf, mode, level, n) := r in exists j f l, bs = [j; f; mode; l] /\ nf = (f =? 1) /\ l < 253 /\ level = l + 3 /\ 4 <= ps /\ n = ps - 4).
Proof.
  unfold rmv_props. eapply exact_iff.
  - apply exact_skip.
    + eapply exact_bind; [apply exact_u8|]. intros ? f _ _. eapply exact_bind; [apply exact_u8|]. intros ? mode _ _. eapply exact_bind; [apply exact_u8|]. intros ? l _ _. eapply exact_bind; [apply exact_lift|]. intros ? level _ _. eapply exact_bind; [apply exact_lift|]. intros ? n _ _. apply exact_ret.
    + apply strict_bind. intros ? ? [-> _]. discriminate.
  - intros bs [[[nf mode] level] n] Hb. cbn beta. split.
    + intros (jj & ? & -> & Hj & ? & ? & f & -> & [-> _] & ? & ? & mode' & -> & [-> _] & ? & ? & l & -> & [-> _] & ? & ? & lv & -> & [-> Hl] & ? & ? & n' & -> & [-> Hn] & -> & E). injection E as -> -> -> ->.
      destruct jj as [|j [|]]; try discriminate Hj. exists j, f, l. apply usubZ_ok in Hn as [H4 ->]. destruct (Z.ltb_spec (l + 3) 256); [|discriminate Hl]. injection Hl as <-. split; auto. split; auto. split; [lia|auto].
    + intros (j & f & l & -> & -> & Hl & -> & H4 & ->). rewrite !bytes_cons_iff in Hb. exists [j]. eexists. split; [reflexivity|]. split; auto. exists [f]. eexists. exists f. split; [reflexivity|]. split; [tauto|].
      exists [mode]. eexists. exists mode. split; [reflexivity|]. split; [tauto|]. exists [l]. eexists. exists l. split; [reflexivity|]. split; [tauto|]. exists [], [], (l + 3). split; auto. split; [split; auto; destruct (Z.ltb_spec (l + 3) 256); [auto|lia]|].
      exists [], [], (ps - 4). split; auto. split; [split; auto; apply usubZ_ok; auto|]. auto.
Qed.
Lemma props_crash ps : crash (rmv_props ps) (fun bs => exists j f m l, bs = [j; f; m; l] /\ (253 <= l \/ ps < 4)).
Proof.
  unfold rmv_props. eapply crash_iff.
  - apply crash_skip.
    + eapply crash_seq; [apply exact_u8|apply crash_u8|]. intros ? f _ _. eapply crash_seq; [apply exact_u8|apply crash_u8|]. intros ? mode _ _. eapply crash_seq; [apply exact_u8|apply crash_u8|]. intros ? l _ _.
      eapply crash_bind; [apply exact_lift|apply crash_lift; destruct (l + 3 <? 256); discriminate|]. intros ? level _ _. eapply crash_bind; [apply exact_lift|apply crash_lift; unfold usubZ; destruct (4 <=? ps); discriminate|]. intros ? n _ _. apply crash_ret.
    + intros z (? & ? & ? & -> & [-> _] & _). discriminate.
  - intros bs Hb. cbn beta. split.
    + intros (jj & ? & -> & Hj & ? & ? & f & -> & [-> _] & ? & ? & mode & -> & [-> _] & ? & ? & l & -> & [-> _] & H). destruct jj as [|j [|]]; try discriminate Hj.
      destruct H as [(-> & E)|(? & ? & lv & -> & (-> & E) & [(-> & E2)|(? & ? & ? & _ & _ & [])])]; exists j, f, mode, l; (split; [reflexivity|]).
      * left. destruct (Z.ltb_spec (l + 3) 256); [discriminate E|lia].
      * right. unfold usubZ in E2. destruct (Z.leb_spec 4 ps); [discriminate E2|lia].
    + intros (j & f & m & l & -> & H). rewrite !bytes_cons_iff in Hb. exists [j]. eexists. split; [reflexivity|]. split; auto. exists [f]. eexists. exists f. split; [reflexivity|]. split; [tauto|].
      exists [m]. eexists. exists m. split; [reflexivity|]. split; [tauto|]. exists [l]. eexists. exists l. split; [reflexivity|]. split; [tauto|]. destruct (Z.ltb_spec (l + 3) 256).
      * right. exists [], [], (l + 3). split; auto. split; auto. left. split; auto. unfold usubZ. destruct (Z.leb_spec 4 ps); [lia|auto].
      * left. auto.
Qed.
Lemma props_det ps : det (rmv_props ps).
Proof. unfold rmv_props. apply det_bind; [apply det_skip|intros]. do 3 (apply det_bind; [apply det_u8|intros]). do 2 (apply det_bind; [apply det_lift|intros]). apply det_ret. Qed.
