(** * OldAvfMain: the avf parser accepts exactly the avf files. *)
From Verif Require Import Base Spec BaseFacts LayMine LayMineProofs MineBoard Evf EvfSpec EvfProofs EvfSafe OldVideos OldSpec OldLib OldAvf.
Open Scope Z_scope.

Lemma exact_avf_size level : exact
      (if level =? 3 then pret (8%nat, 8%nat, 10)
       else if level =? 4 then pret (16%nat, 16%nat, 40)
       else if level =? 5 then pret (30%nat, 16%nat, 99)
       else if level =? 6 then
         get* w := get_u8 in
         get* h := get_u8 in
         get* m := get_u16 in
         pret ((Z.to_nat w + 1)%nat, (Z.to_nat h + 1)%nat, m)
       else plift (Err InvalidLevel))
  (fun bs r => let '(w, h, m) := r in avf_size level bs h w m).
Proof.
  unfold avf_size. destruct (Z.eqb_spec level 3) as [->|N3].
  { eapply exact_iff; [apply exact_ret|]. intros bs [[w h] m] _. split; [intros [-> E]; injection E as -> -> ->; tauto|].
    intros [(_ & -> & -> & -> & ->)|[(X & _)|[(X & _)|(X & _)]]]; [auto|lia|lia|lia]. }
  destruct (Z.eqb_spec level 4) as [->|N4].
  { eapply exact_iff; [apply exact_ret|]. intros bs [[w h] m] _. split; [intros [-> E]; injection E as -> -> ->; tauto|].
    intros [(X & _)|[(_ & -> & -> & -> & ->)|[(X & _)|(X & _)]]]; [lia|auto|lia|lia]. }
  destruct (Z.eqb_spec level 5) as [->|N5].
  { eapply exact_iff; [apply exact_ret|]. intros bs [[w h] m] _. split; [intros [-> E]; injection E as -> -> ->; tauto|].
    intros [(X & _)|[(X & _)|[(_ & -> & -> & -> & ->)|(X & _)]]]; [lia|lia|auto|lia]. }
  destruct (Z.eqb_spec level 6) as [->|N6].
  - eapply exact_iff.
    + eapply exact_bind; [apply exact_u8|]. intros ? w _ _. eapply exact_bind; [apply exact_u8|]. intros ? h _ _. eapply exact_bind; [apply exact_u16|]. intros ? m _ _. apply exact_ret.
    + intros bs [[W H] m] Hb. split.
      * intros (? & ? & w & -> & [-> _] & ? & ? & h & -> & [-> _] & ? & ? & mm & -> & (m1 & m2 & -> & _ & _ & ->) & -> & E). injection E as -> -> ->. do 3 right. split; auto. exists w, h, m1, m2. auto.
      * intros [(X & _)|[(X & _)|[(X & _)|(_ & w & h & m1 & m2 & -> & -> & -> & ->)]]]; [lia|lia|lia|].
        repeat match goal with H : bytes (_ :: _) |- _ => inversion H; clear H; subst | H : Forall byte (_ :: _) |- _ => inversion H; clear H; subst end.
        exists [w], [h; m1; m2], w. split; auto. split; auto. exists [h], [m1; m2], h. split; auto. split; auto. exists [m1; m2], [], (m1 * 256 + m2). split; auto. split; [exists m1, m2; auto|]. auto.
  - intros raw o [[w h] m] o' _. split; [intros X; discriminate X|]. intros (bs & _ & _ & [(X & _)|[(X & _)|[(X & _)|(X & _)]]]); contradiction.
Qed.

Lemma exact_option {A} (x : option A) e : exact (plift (match x with Some v => Ok v | None => Err e end)) (fun bs v => bs = [] /\ x = Some v).
Proof.
  eapply exact_iff; [apply exact_lift|]. intros bs v _. destruct x; cbn; split; intros [H1 H2]; split; auto; congruence.
Qed.

(** "|B", the "|" of the text before counts *)
Lemma hit_B_gen a b a' b' z : ((b =? 124) = (b' =? 124)) -> (first_hit avf_mark_B a b z <-> first_hit avf_mark_B a' b' z).
Proof.
  intros Hb. unfold first_hit.
  assert (E : forall i, avf_mark_B (nth i (a :: b :: z) 0) (nth (i + 1) (a :: b :: z) 0) (nth (i + 2) (a :: b :: z) 0) = avf_mark_B (nth i (a' :: b' :: z) 0) (nth (i + 1) (a' :: b' :: z) 0) (nth (i + 2) (a' :: b' :: z) 0)).
  { intros [|i]; unfold avf_mark_B; [cbn [Nat.add nth]; now rewrite Hb|]. replace (S i + 1)%nat with (S (S i)) by lia. replace (S i + 2)%nat with (S (S (S i))) by lia. reflexivity. }
  split; intros [H1 H2]; split; auto; intros i Hi; [rewrite <- E|rewrite E]; auto.
Qed.
Lemma exact_B : exact avf_find_B (fun bs _ => first_hit avf_mark_B 0 124 bs).
Proof.
  unfold avf_find_B. eapply exact_iff.
  - eapply exact_bind; [apply exact_u8|]. intros ? v _ [_ Hv].
    instantiate (1 := fun v bs _ => if v =? 66 then bs = [] else first_hit avf_mark_B 124 v bs). cbn beta zeta.
    assert (G : forall b, (b =? 124) = (v =? 124) -> exact (loop (fun '(b1, b2) => get* v := get_char in if (b2 =? 124) && (v =? 66) then pret (inr tt) else pret (Datatypes.inl (b2, v))) (0, b))
              (fun bs _ => first_hit avf_mark_B 124 v bs)).
    { intros b Eb. eapply exact_iff; [apply (exact_scan avf_mark_B (fun _ _ => tt) 0 b)|]. intros z [] _. rewrite (@hit_B_gen 0 b 124 v z Eb). split; [tauto|]. intros H. split; auto. exists (length z). auto. }
    destruct (Z.eqb_spec v 124) as [->|N].
    + cbn [fst snd Z.eqb Pos.eqb andb]. apply G. reflexivity.
    + destruct (Z.eqb_spec v 66) as [->|N2].
      * cbn [fst snd Z.eqb Pos.eqb andb]. eapply exact_iff; [apply exact_ret|]. intros z [] _. intuition.
      * cbn [fst snd Z.eqb Pos.eqb andb]. apply G. now destruct (Z.eqb_spec v 124).
  - intros bs [] Hb. split.
    + intros (? & b2 & v & -> & [-> Hv] & H). cbn [app]. destruct (Z.eqb_spec v 66) as [->|N].
      * subst b2. apply first_hit_one. reflexivity.
      * apply first_hit_cons; [apply H|]. split; auto. unfold avf_mark_B. destruct (Z.eqb_spec v 66); [contradiction|reflexivity].
    + intros F. destruct bs as [|v bs]; [destruct F as [F _]; contradiction|]. exists [v], bs, v. split; auto. inversion Hb; subst. split; auto. destruct (Z.eqb_spec v 66) as [->|N].
      * destruct bs; auto. apply first_hit_cons in F as [F _]; [|discriminate]. discriminate F.
      * destruct bs; [apply first_hit_one in F; unfold avf_mark_B in F; destruct (Z.eqb_spec v 66); [contradiction|discriminate F]|]. apply first_hit_cons in F as [_ F]; [exact F|discriminate].
Qed.
Lemma exact_skin : forall {A} (k : P A) L, exact k L -> exact (get* _ := seek 83 in get* _ := seek 107 in get* _ := seek 105 in get* _ := seek 110 in get* _ := seek 58 in get* _ := seek 13 in k)
  (fun bs a => exists s b, bs = s ++ b /\ avf_skin s /\ L b a).
Proof.
  intros A k L Hk. eapply exact_iff.
  - do 6 (eapply exact_bind; [apply exact_seek|intros ? ? _ _]). apply Hk.
  - intros bs x _. cbn beta. unfold avf_skin. split.
    + intros (? & ? & [] & -> & (a & -> & Ha) & ? & ? & [] & -> & (b & -> & Hb) & ? & ? & [] & -> & (c & -> & Hc) & ? & ? & [] & -> & (d & -> & Hd) & ? & ? & [] & -> & (e & -> & He) & ? & z & [] & -> & (f & -> & Hf) & HL).
      exists ((a ++ [83]) ++ (b ++ [107]) ++ (c ++ [105]) ++ (d ++ [110]) ++ (e ++ [58]) ++ f ++ [13]), z. split; [now rewrite <- !app_assoc|]. split; auto. exists a, b, c, d, e, f. auto 8.
    + intros (s & z & -> & (a & b & c & d & e & f & -> & Ha & Hb & Hc & Hd & He & Hf) & HL). rewrite <- !app_assoc.
      exists (a ++ [83]). eexists. exists tt. split; [rewrite <- app_assoc; reflexivity|]. split; [eauto|].
      exists (b ++ [107]). eexists. exists tt. split; [rewrite <- app_assoc; reflexivity|]. split; [eauto|].
      exists (c ++ [105]). eexists. exists tt. split; [rewrite <- app_assoc; reflexivity|]. split; [eauto|].
      exists (d ++ [110]). eexists. exists tt. split; [rewrite <- app_assoc; reflexivity|]. split; [eauto|].
      exists (e ++ [58]). eexists. exists tt. split; [rewrite <- app_assoc; reflexivity|]. split; [eauto|].
      exists (f ++ [13]), z, tt. split; [rewrite <- app_assoc; reflexivity|]. split; [eauto|]. exact HL.
Qed.

Lemma loop_fuel_ext {S A} (f g : S -> P (S + A)) : (forall s raw o, f s raw o = g s raw o) -> forall n s raw o, loop_fuel n f s raw o = loop_fuel n g s raw o.
Proof. intros H. induction n as [|n IH]; intros s raw o; cbn [loop_fuel]; auto. unfold pbind. rewrite H. destruct (g s raw o) as [[[s'|a]|e| |] o1]; auto. Qed.
Lemma exact_mark : exact (loop (fun '(b1, b2) =>
                get* v := get_char in
                if (b1 =? 91) && ((b2 =? 48) || (b2 =? 49) || (b2 =? 50) || (b2 =? 51)) && (v =? 124)
                then pret (inr tt) else pret (Datatypes.inl (b2, v))) (0, 0))
  (fun bs (_ : unit) => first_hit avf_mark 0 0 bs).
Proof.
  eapply exact_ext with (q := loop (fun '(b1, b2) => get* v := get_char in if avf_mark b1 b2 v then pret (inr tt) else pret (Datatypes.inl (b2, v))) (0, 0)).
  - intros raw o. apply loop_fuel_ext. clear. intros [b1 b2] raw o. unfold pbind. destruct (get_char raw o) as [[v|e| |] o1]; auto.
    replace ((b1 =? 91) && ((b2 =? 48) || (b2 =? 49) || (b2 =? 50) || (b2 =? 51)) && (v =? 124)) with (avf_mark b1 b2 v); auto.
    unfold avf_mark. assert (E : (48 <=? b2) && (b2 <=? 51) = ((b2 =? 48) || (b2 =? 49) || (b2 =? 50) || (b2 =? 51))) by lia. rewrite <- E. now rewrite !andb_assoc.
  - eapply exact_iff; [apply (exact_scan avf_mark (fun _ _ => tt))|]. intros bs [] _. split; [tauto|]. intros H. split; auto. exists (length bs). auto.
Qed.
Lemma exact_evscan : exact (loop (fun '(b1, b2) =>
                       get* v := get_u8 in
                       if (v =? 1) && (b2 <=? 1) then pret (inr (b1, b2)) else pret (Datatypes.inl (b2, v))) (0, 0))
  (fun bs r => first_hit avf_mark_event 0 0 bs /\ r = (nth (length bs - 1) (0 :: 0 :: bs) 0, nth (length bs) (0 :: 0 :: bs) 0)).
Proof.
  eapply exact_iff; [apply (exact_scan avf_mark_event (fun a b => (a, b)))|]. intros bs r _. split.
  - intros (H & n & -> & ->). auto.
  - intros (H & ->). split; auto. exists (length bs). auto.
Qed.
Lemma exact_first {A} e (k : Z -> P A) L : exact (pbind get_u8 k) L -> exact (fun raw o => match get_u8 raw o with (Ok x, o) => k x raw o | (_, o) => (Err e, o) end) L.
Proof.
  intros H raw o a o' Hb. rewrite <- (H raw o a o' Hb). unfold pbind. destruct (get_u8 raw o) as [[x|e'| |] o1]; [reflexivity| | |]; split; intros X; discriminate X.
Qed.

(** the result agrees with the contents of the file *)
Definition avf_result (v : oldv) (a : avf_contents) : Prop :=
  o_software v = [65; 114; 98; 105; 116; 101; 114] /\ o_level v = a_level a /\ o_width v = a_width a /\ o_height v = a_height a /\ o_mines v = a_count a /\
  o_mode v = 0 /\ o_nf v = false /\ o_bbbv v = a_bbbv a /\ o_rtime_ms v = a_rtime a /\ o_start v = a_start a /\ o_end v = a_end a /\
  o_player v = a_player a /\ o_country v = [] /\ o_events v = a_events a /\ board_of (a_height a) (a_width a) (a_mines a) (o_board v).

Lemma bytes_app_iff a b : bytes (a ++ b) <-> bytes a /\ bytes b.
Proof. apply Forall_app. Qed.
Lemma bytes_cons_iff x b : bytes (x :: b) <-> byte x /\ bytes b.
Proof. split; [intros H; now inversion H|intros [H1 H2]; now constructor]. Qed.
Lemma bytes_nth l i : bytes l -> byte (nth i l 0).
Proof. intros H. destruct (Nat.lt_ge_cases i (length l)) as [Hi|Hi]; [|rewrite nth_overflow by auto; unfold byte; lia]. apply (nth_In l 0) in Hi. revert Hi. apply Forall_forall. exact H. Qed.
Lemma avf_last_iff r : length r = 8%nat -> (endb r = true <-> avf_last r).
Proof. intros L. unfold endb, avf_last. rewrite andb_true_iff, !Z.eqb_eq. tauto. Qed.
Lemma recs_iff recs es : bytes (concat recs) -> Forall (fun r => length r = 8%nat) recs -> (Forall2 rec_event recs es <-> Forall2 avf_record recs es).
Proof.
  intros Hb HL. split.
  - intros H. induction H as [|r e recs es Hr H IH]; [constructor|]. inversion HL; subst. cbn [concat] in Hb. apply Forall_app in Hb as [Hb1 Hb2]. constructor; auto. now apply rec_event_iff.
  - intros H. induction H as [|r e recs es Hr H IH]; [constructor|]. inversion HL; subst. cbn [concat] in Hb. apply Forall_app in Hb as [Hb1 Hb2]. constructor; auto. now apply rec_event_iff.
Qed.
Lemma record_length recs es : Forall2 avf_record recs es -> Forall (fun r => length r = 8%nat) recs.
Proof. induction 1 as [|r e recs es Hr H IH]; constructor; auto. destruct Hr as (? & ? & ? & ? & ? & ? & ? & ? & ? & -> & _). reflexivity. Qed.
Lemma avf_exact rt : exact (parse_avf rt) (fun bs v => exists a, avf_file rt bs a /\ avf_result v a).
Proof.
  unfold parse_avf. apply exact_first. eapply exact_iff.
  - eapply exact_bind; [apply exact_u8|]. intros ? ? _ _. cbn beta.
    apply exact_skip.
    + eapply exact_bind; [apply exact_u8|]. intros ? level _ _.
      eapply exact_bind3; [apply exact_avf_size|]. intros ? w h m _ _.
      eapply exact_bind; [apply exact_avf_board|]. intros ? b _ _.
      eapply exact_bind; [apply exact_mark|]. intros ? ? _ _.
      eapply exact_bind; [apply exact_until|]. intros ? start _ _.
      eapply exact_bind; [apply exact_until|]. intros ? end_ _ _.
      eapply exact_bind; [apply exact_B|]. intros ? ? _ _.
      eapply exact_bind; [apply exact_until|]. intros ? s _ _.
      eapply exact_bind; [apply exact_option|]. intros ? bbbv _ _.
      eapply exact_bind; [apply exact_until|]. intros ? s2 _ _.
      eapply exact_bind; [apply exact_option|]. intros ? rtime _ _.
      eapply exact_bind2; [apply exact_evscan|]. intros ? b0 b1 _ _.
      eapply exact_bind; [apply exact_take|]. intros ? rest _ _.
      eapply exact_bind; [apply exact_avf_events|]. intros ? events _ _.
      apply exact_skin.
      eapply exact_bind; [apply exact_until|]. intros ? player _ _.
      apply exact_ret.
    + apply strict_bind. intros ? ? [-> _]. discriminate.
  - cbn beta. intros bs v Hb. split.
    + intros (? & ? & x0 & -> & [-> _] & head & ? & -> & Hh & ? & ? & level & -> & [-> _] & dims & ? & w & h & m & -> & Hsize & ? & ? & b & -> & (_ & mines & -> & Hlen & Hbd)
        & um & ? & [] & -> & Hum & ? & ? & start & -> & [-> Hst] & ? & ? & end_ & -> & [-> Hen] & uB & ? & [] & -> & HuB & ? & ? & bb & -> & [-> Hbb] & ? & ? & bbbv & -> & [-> Hbv]
        & ? & ? & tx & -> & [-> Htx] & ? & ? & rtime & -> & [-> Hrt] & ue & ? & e0 & e1 & -> & [Hue Ee] & five & ? & ? & -> & [H5 ->] & ? & ? & evs & -> & (recs & last & es & -> & HF & Hl & Hend & HF2 & ->)
        & skin & ? & -> & Hsk & ? & ? & player & -> & [-> Hpl] & -> & ->).
      injection Ee as -> ->. cbn [fst snd app] in *.
      exists (Avf level h w m mines bbbv rtime start end_ player es). split; [|unfold avf_result; cbn; auto 20].
      exists (x0 :: head), dims, um, uB, bb, tx, ue, (nth (length ue - 1) (0 :: 0 :: ue) 0), (nth (length ue) (0 :: 0 :: ue) 0), five, recs, last, skin. cbn [a_level a_height a_width a_count a_mines a_bbbv a_rtime a_start a_end a_player a_events].
      assert (Hbu : bytes ue /\ bytes five /\ bytes (concat recs)) by (repeat rewrite ?bytes_cons_iff, ?bytes_app_iff in Hb; tauto). destruct Hbu as (Hbu & Hb5 & Hbr).
      split; [cbn [app]; now rewrite <- !app_assoc|]. split; [cbn; congruence|]. split; [exact Hsize|]. split; [exact Hlen|]. do 5 (split; [assumption|]).
      split; [now apply parse_usize_iff|]. do 3 (split; [assumption|]). do 2 (split; [reflexivity|]). split; [assumption|].
      split; [revert HF; apply Forall_impl; intros r [L E] X; apply avf_last_iff in X; auto; congruence|]. split; [now apply avf_last_iff|]. split; [|auto].
      inversion HF2 as [|? e ? es' He HF2']; subst. constructor.
      * apply rec_event_iff; auto; [|cbn; congruence]. constructor; [apply bytes_nth; constructor; [unfold byte; lia|constructor; [unfold byte; lia|auto]]|]. constructor; [apply bytes_nth; constructor; [unfold byte; lia|constructor; [unfold byte; lia|auto]]|]. constructor; [unfold byte; lia|auto].
      * apply recs_iff; auto. revert HF. apply Forall_impl. tauto.
    + intros ([level h w m mines bbbv rtime start end_ player es] & (head & dims & um & uB & bb & tx & ue & e0 & e1 & five & recs & last & skin & Hfile & Hh & Hsize & Hlen & Hum & Hst & Hen & HuB & Hbb & Hbv & Htx & Hrt & Hue & -> & -> & H5 & HF & Hl & HF2 & Hsk & Hpl) & Hres).
      cbn [a_level a_height a_width a_count a_mines a_bbbv a_rtime a_start a_end a_player a_events] in *. subst bs.
      destruct head as [|x0 head]; [discriminate Hh|].
      assert (Hbu : byte x0 /\ byte level /\ bytes ue /\ bytes five /\ bytes (concat recs)).
      { cbn [app] in Hb. repeat rewrite ?bytes_cons_iff, ?bytes_app_iff in Hb. tauto. }
      destruct Hbu as (Hx0 & Hlev & Hbu & Hb5 & Hbr).
      destruct v as [vs vl vw vh vm vmo vnf vb vr vst ven vp vc vbd vev]. unfold avf_result in Hres. cbn [o_software o_level o_width o_height o_mines o_mode o_nf o_bbbv o_rtime_ms o_start o_end o_player o_country o_board o_events a_level a_height a_width a_count a_mines a_bbbv a_rtime a_start a_end a_player a_events] in Hres.
      destruct Hres as (-> & -> & -> & -> & -> & -> & -> & -> & -> & -> & -> & -> & -> & -> & Hbd).
      assert (Hh1 : (1 <= h)%nat) by (destruct Hsize as [(_ & _ & -> & _)|[(_ & _ & -> & _)|[(_ & _ & -> & _)|(_ & ? & ? & ? & ? & _ & -> & _)]]]; lia).
      pose proof (record_length HF2) as Hrl. inversion HF2 as [|? e ? es' He HF2']; subst. inversion Hrl as [|? ? _ Hrl']; subst.
      exists [x0]. eexists. exists x0. split; [reflexivity|]. split; [auto|].
      exists head. eexists. split; [reflexivity|]. split; [cbn in Hh; lia|].
      exists [level]. eexists. exists level. split; [reflexivity|]. split; [auto|].
      exists dims. eexists. exists w, h, m. split; [reflexivity|]. split; [exact Hsize|].
      exists (avf_mines mines). eexists. exists vbd. split; [reflexivity|]. split; [split; [exact Hh1|]; exists mines; auto|].
      exists um. eexists. exists tt. split; [reflexivity|]. split; [exact Hum|].
      exists (start ++ [124]). eexists. exists start. split; [reflexivity|]. split; [auto|].
      exists (end_ ++ [124]). eexists. exists end_. split; [reflexivity|]. split; [auto|].
      exists uB. eexists. exists tt. split; [reflexivity|]. split; [exact HuB|].
      exists (bb ++ [84]). eexists. exists bb. split; [reflexivity|]. split; [auto|].
      exists []. eexists. exists bbbv. split; [reflexivity|]. split; [split; auto; now apply parse_usize_iff|].
      exists (tx ++ [93]). eexists. exists tx. split; [reflexivity|]. split; [auto|].
      exists []. eexists. exists rtime. split; [reflexivity|]. split; [split; auto|].
      exists ue. eexists. do 2 eexists. split; [reflexivity|]. split; [split; [exact Hue|reflexivity]|].
      exists five. eexists. exists five. split; [reflexivity|]. split; [auto|].
      exists (concat recs ++ last). eexists. exists (e :: es'). split; [reflexivity|]. split.
      { exists recs, last, (e :: es'). split; auto. split.
        - apply Forall_forall. intros r Hr. rewrite Forall_forall in HF, Hrl'. split; [auto|]. destruct (endb r) eqn:En; auto. apply avf_last_iff in En; [|auto]. destruct (HF r Hr En).
        - split; [apply Hl|]. split; [apply avf_last_iff; [apply Hl|exact Hl]|]. split; [|reflexivity]. constructor.
          + apply rec_event_iff; [|cbn; congruence|exact He]. cbn [snd]. constructor; [apply bytes_nth; constructor; [unfold byte; lia|constructor; [unfold byte; lia|auto]]|]. constructor; [apply bytes_nth; constructor; [unfold byte; lia|constructor; [unfold byte; lia|auto]]|]. constructor; [unfold byte; lia|auto].
          + apply recs_iff; auto. }
      exists skin. eexists. split; [reflexivity|]. split; [exact Hsk|].
      exists (player ++ [13]), [], player. split; [now rewrite app_nil_r|]. auto.
Qed.
