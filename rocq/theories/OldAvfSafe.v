(** * OldAvfSafe: where the avf parser crashes; avf files cut short. *)
From Verif Require Import Base Spec BaseFacts LayMine LayMineProofs MineBoard Evf EvfSpec EvfProofs EvfSafe OldVideos OldSpec OldLib OldAvf OldAvfMain OldSafe.
Open Scope Z_scope.

Lemma until_calm c : crash (until c) never /\ det (until c).
Proof. apply char_loop with (g := fun acc v => if v =? c then inr acc else Datatypes.inl (acc ++ [v])). intros s raw o. unfold pbind, get_char. destruct (get_u8 raw o) as [[v|e| |] o1]; auto. destruct (v =? c); auto. Qed.
Lemma seek_calm c : crash (seek c) never /\ det (seek c).
Proof. apply char_loop with (g := fun _ v => if v =? c then inr tt else Datatypes.inl tt). intros s raw o. unfold pbind, get_char. destruct (get_u8 raw o) as [[v|e| |] o1]; auto. destruct (v =? c); auto. Qed.
Lemma scan_calm {A} (hit : Z -> Z -> Z -> bool) (res : Z -> Z -> A) s :
  crash (loop (fun '(b1, b2) => get* v := get_char in if hit b1 b2 v then pret (inr (res b1 b2)) else pret (Datatypes.inl (b2, v))) s) never /\
  det (loop (fun '(b1, b2) => get* v := get_char in if hit b1 b2 v then pret (inr (res b1 b2)) else pret (Datatypes.inl (b2, v))) s).
Proof.
  apply char_loop with (g := fun s v => if hit (fst s) (snd s) v then inr (res (fst s) (snd s)) else Datatypes.inl (snd s, v)). intros [b1 b2] raw o. unfold pbind, get_char. cbn [fst snd].
  destruct (get_u8 raw o) as [[v|e| |] o1]; auto. destruct (hit b1 b2 v); auto.
Qed.
Lemma find_B_calm : crash avf_find_B never /\ det avf_find_B.
Proof.
  unfold avf_find_B. split.
  - apply calm_bind; [apply crash_u8|]. intros v. cbn zeta. destruct ((fst _ =? 124) && _); [apply crash_ret|]. apply (scan_calm avf_mark_B (fun _ _ => tt)).
  - apply det_bind; [apply det_u8|]. intros v. cbn zeta. destruct ((fst _ =? 124) && _); [apply det_ret|]. apply (scan_calm avf_mark_B (fun _ _ => tt)).
Qed.
Lemma events_calm s : crash (loop avf_event s) never /\ det (loop avf_event s).
Proof.
  assert (Hs : forall s, strict (ev_lang s)) by (intros s0 bs a (e & _ & L & _) E; subst; discriminate L). split.
  - apply (@calm_loop _ _ avf_event ev_lang exact_avf_event Hs). intros [acc bf]. unfold avf_event. destruct (avf_kind _).
    + apply calm_bind; [apply crash_take|]. intros r. destruct ((nth 2 r 0 =? 0) && (nth 6 r 0 =? 0)); apply crash_ret.
    + eapply crash_iff; [apply crash_lift; discriminate|]. intros bs _. split; [intros [_ X]; discriminate X|intros []].
  - apply (@det_loop _ _ avf_event ev_lang exact_avf_event Hs). intros [acc bf]. unfold avf_event. destruct (avf_kind _).
    + apply det_bind; [apply det_take|]. intros r. destruct ((nth 2 r 0 =? 0) && (nth 6 r 0 =? 0)); apply det_ret.
    + apply det_lift.
Qed.
Lemma calm_lift_option {A} (x : option A) e : crash (plift (match x with Some v => Ok v | None => Err e end)) never.
Proof. apply calm_intro. intros raw o _. destruct x; cbn; split; discriminate. Qed.
Lemma calm_err {A} e : crash (@plift A (Err e)) never.
Proof. apply calm_intro. intros raw o _. split; discriminate. Qed.
Lemma mark_calm s : crash (loop (fun '(b1, b2) =>
                get* v := get_char in
                if (b1 =? 91) && ((b2 =? 48) || (b2 =? 49) || (b2 =? 50) || (b2 =? 51)) && (v =? 124)
                then pret (inr tt) else pret (Datatypes.inl (b2, v))) s) never /\ det (loop (fun '(b1, b2) =>
                get* v := get_char in
                if (b1 =? 91) && ((b2 =? 48) || (b2 =? 49) || (b2 =? 50) || (b2 =? 51)) && (v =? 124)
                then pret (inr tt) else pret (Datatypes.inl (b2, v))) s).
Proof. apply (scan_calm (fun b1 b2 v => (b1 =? 91) && ((b2 =? 48) || (b2 =? 49) || (b2 =? 50) || (b2 =? 51)) && (v =? 124)) (fun _ _ => tt)). Qed.
Lemma evscan_calm s : crash (loop (fun '(b1, b2) =>
                       get* v := get_u8 in
                       if (v =? 1) && (b2 <=? 1) then pret (inr (b1, b2)) else pret (Datatypes.inl (b2, v))) s) never /\ det (loop (fun '(b1, b2) =>
                       get* v := get_u8 in
                       if (v =? 1) && (b2 <=? 1) then pret (inr (b1, b2)) else pret (Datatypes.inl (b2, v))) s).
Proof. apply (scan_calm avf_mark_event (fun a b => (a, b))). Qed.

(** the first byte: an empty file is an error *)
Lemma crash_first {A} e (k : Z -> P A) C : crash (pbind get_u8 k) C -> crash (fun raw o => match get_u8 raw o with (Ok x, o) => k x raw o | (_, o) => (Err e, o) end) C.
Proof.
  intros H raw o Hb. specialize (H raw o Hb). unfold pbind in H. unfold get_u8 in *. destruct (nth_error raw o) as [x|]; auto. cbn [fst] in *. destruct H as [_ H]. split; [discriminate|].
  rewrite <- H. split; intros X; discriminate X.
Qed.
Lemma det_first {A} e (k : Z -> P A) : (forall x, det (k x)) -> det (fun raw o => match get_u8 raw o with (Ok x, o) => k x raw o | (_, o) => (Err e, o) end).
Proof.
  intros H raw post o Hb. destruct (@det_u8 raw post o Hb) as [E|[e' E]].
  - rewrite E. destruct (get_u8 raw o) as [[x|e'| |] o1]; auto. now apply H.
  - right. destruct (get_u8 raw o) as [[x|e0| |] o1]; cbn in E; try discriminate E. exists e. reflexivity.
Qed.

Lemma avf_board_ext n b : forall raw o, (get* b := pfold avf_mine (seq 0 n) b in plift (cal_board_numbers b)) raw o = (get* b := pfold (mine_step avf_put) (seq 0 n) b in plift (cal_board_numbers b)) raw o.
Proof. intros raw o. unfold pbind. rewrite (pfold_ext (fun s a o => avf_mine_step s a raw o)). reflexivity. Qed.
Lemma avf_det rt : det (parse_avf rt).
Proof.
  unfold parse_avf. apply det_first. intros _.
  apply det_bind; [apply det_skip|intros _]. apply det_bind; [apply det_u8|intros level]. apply det_bind.
  { destruct (level =? 3); [apply det_ret|]. destruct (level =? 4); [apply det_ret|]. destruct (level =? 5); [apply det_ret|]. destruct (level =? 6); [|apply det_lift]. do 2 (apply det_bind; [apply det_u8|intros]). apply det_bind; [apply det_u16|intros]. apply det_ret. }
  intros [[w h] m]. apply det_bind; [apply (det_ext (avf_board_ext _ _)), det_board|]. intros b.
  apply det_bind; [apply mark_calm|intros _]. apply det_bind; [apply until_calm|intros start]. apply det_bind; [apply until_calm|intros end_]. apply det_bind; [apply find_B_calm|intros _].
  apply det_bind; [apply until_calm|intros s]. apply det_bind; [apply det_lift|intros bbbv]. apply det_bind; [apply until_calm|intros s2]. cbn zeta. apply det_bind; [apply det_lift|intros rtime].
  apply det_bind; [apply evscan_calm|intros [b0 b1]]. apply det_bind; [apply det_take|intros rest]. apply det_bind; [apply events_calm|intros events].
  do 6 (apply det_bind; [apply seek_calm|intros _]). apply det_bind; [apply until_calm|intros player]. apply det_ret.
Qed.

(** A crash: a listed mine is not on the board. *)
Definition avf_bad_mine (bs : list Z) : Prop := exists head level dims height width count ok c d,
  bs = head ++ [level] ++ dims ++ avf_mines ok ++ [c; d] /\ length head = 5%nat /\ avf_size level dims height width count /\
  (length ok < Z.to_nat count)%nat /\ Forall (inb height width) ok /\ ~ (1 <= c <= Z.of_nat height /\ 1 <= d <= Z.of_nat width).
Lemma avf_crash rt : crash (parse_avf rt) avf_bad_mine.
Proof.
  unfold parse_avf. apply crash_first. eapply crash_iff.
  - eapply crash_seq; [apply exact_u8|apply crash_u8|]. intros ? ? _ _. apply crash_skip.
    + eapply crash_seq; [apply exact_u8|apply crash_u8|]. intros ? level _ _.
      eapply crash_seq3; [apply exact_avf_size| |].
      { destruct (level =? 3); [apply crash_ret|]. destruct (level =? 4); [apply crash_ret|]. destruct (level =? 5); [apply crash_ret|]. destruct (level =? 6); [|apply calm_err].
        do 2 (apply calm_bind; [apply crash_u8|intros]). apply calm_bind; [apply crash_u16|intros]. apply crash_ret. }
      intros ? w h m _ _. eapply crash_bind with (C2 := fun _ => never).
      * apply exact_avf_board.
      * eapply crash_ext; [apply avf_board_ext|]. apply (@crash_board h w avf_place (avf_good h w) avf_put Panic); [apply avf_put_ok|discriminate|discriminate].
      * intros ? b _ _. apply calm_bind; [apply mark_calm|intros _]. apply calm_bind; [apply until_calm|intros start]. apply calm_bind; [apply until_calm|intros end_]. apply calm_bind; [apply find_B_calm|intros _].
        apply calm_bind; [apply until_calm|intros s]. apply calm_bind; [apply calm_lift_option|intros bbbv]. apply calm_bind; [apply until_calm|intros s2]. cbn zeta. apply calm_bind; [apply calm_lift_option|intros rtime].
        apply calm_bind; [apply evscan_calm|intros [b0 b1]]. apply calm_bind; [apply crash_take|intros rest]. apply calm_bind; [apply events_calm|intros events].
        do 6 (apply calm_bind; [apply seek_calm|intros _]). apply calm_bind; [apply until_calm|intros player]. apply crash_ret.
    + intros z (? & ? & ? & -> & [-> _] & _). discriminate.
  - intros bs Hb. cbn beta. split.
    + intros (? & ? & x0 & -> & [-> _] & head & ? & -> & Hh & ? & ? & level & -> & [-> _] & dims & rest & w & h & m & -> & Hsize & [[(_ & l & c & d & -> & Hl & HF & Hg)|(H0 & _)]|(? & ? & ? & _ & _ & [])]).
      * cbn [app] in Hb. repeat rewrite ?bytes_cons_iff, ?bytes_app_iff in Hb. assert (Hbl : bytes (pairs_of l)) by tauto.
        destruct (avf_pairs Hbl HF) as [E Hin]. exists (x0 :: head), level, dims, h, w, m, (map (fun '(c, d) => avf_place c d) l), c, d. rewrite E.
        split; [reflexivity|]. split; [cbn; congruence|]. split; auto. split; [now rewrite map_length|]. split.
        -- rewrite Forall_forall in *. intros p Hp. apply in_map_iff in Hp as ([c' d'] & <- & Hp). exact (Hin _ Hp).
        -- unfold avf_good in Hg. lia.
      * exfalso. destruct Hsize as [(_ & _ & -> & _)|[(_ & _ & -> & _)|[(_ & _ & -> & _)|(_ & ? & ? & ? & ? & _ & -> & _)]]]; lia.
    + intros (head & level & dims & h & w & m & ok & c & d & -> & Hh & Hsize & Hl & Hin & Hbad). destruct head as [|x0 head]; [discriminate Hh|].
      cbn [app] in Hb. repeat rewrite ?bytes_cons_iff, ?bytes_app_iff in Hb.
      exists [x0]. eexists. exists x0. split; [reflexivity|]. split; [tauto|].
      exists head. eexists. split; [reflexivity|]. split; [cbn in Hh; lia|].
      exists [level]. eexists. exists level. split; [reflexivity|]. split; [tauto|].
      exists dims. eexists. exists w, h, m. split; [reflexivity|]. split; [exact Hsize|]. left. left. split; auto.
      destruct (avf_unpairs Hin) as (l & E & L & F & _). exists l, c, d. split; [now rewrite E|]. split; [lia|]. split; auto. unfold avf_good. lia.
Qed.
