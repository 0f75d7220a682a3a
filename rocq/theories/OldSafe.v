(** * OldSafe: where the readers crash, and what they do on a file cut short. *)
From Verif Require Import Base Spec BaseFacts LayMine LayMineProofs MineBoard Evf EvfSpec EvfProofs EvfSafe OldVideos OldSpec OldLib OldAvf.
Open Scope Z_scope.

(** [p] always ends, and panics exactly where one of the byte strings [C] stands *)
Definition crash {A} (p : P A) (C : list Z -> Prop) : Prop := forall raw o, bytes raw ->
  fst (p raw o) <> OutOfFuel /\ (fst (p raw o) = Panic <-> exists bs, seg raw o bs /\ C bs).
(** [p] never looks beyond the end: more bytes only matter where it now fails with an error *)
Definition det {A} (p : P A) : Prop := forall raw post o, bytes (raw ++ post) ->
  p (raw ++ post) o = p raw o \/ exists e, fst (p raw o) = Err e.

Definition never : list Z -> Prop := fun _ => False.

Lemma crash_iff {A} (p : P A) C C' : crash p C -> (forall bs, bytes bs -> (C bs <-> C' bs)) -> crash p C'.
Proof.
  intros H E raw o Hb. destruct (H raw o Hb) as [H1 H2]. split; auto. rewrite H2. split; intros (bs & S & HC); exists bs; (split; [auto|]); apply E; auto; eapply seg_bytes; eauto.
Qed.
Lemma crash_ext {A} (p q : P A) C : (forall raw o, p raw o = q raw o) -> crash q C -> crash p C.
Proof. intros E H raw o Hb. rewrite E. now apply H. Qed.
Lemma det_ext {A} (p q : P A) : (forall raw o, p raw o = q raw o) -> det q -> det p.
Proof. intros E H raw post o Hb. rewrite !E. now apply H. Qed.
Lemma calm_intro {A} (p : P A) : (forall raw o, bytes raw -> fst (p raw o) <> OutOfFuel /\ fst (p raw o) <> Panic) -> crash p never.
Proof. intros H raw o Hb. destruct (H raw o Hb) as [H1 H2]. split; auto. split; [intros; contradiction|]. intros (_ & _ & []). Qed.
Lemma calm_elim {A} (p : P A) raw o : crash p never -> bytes raw -> fst (p raw o) <> OutOfFuel /\ fst (p raw o) <> Panic.
Proof. intros H Hb. destruct (H raw o Hb) as [H1 H2]. split; auto. intros E. apply H2 in E as (_ & _ & []). Qed.

Lemma crash_ret {A} (a : A) : crash (pret a) never.
Proof. apply calm_intro. intros raw o _. cbn. split; discriminate. Qed.
Lemma det_ret {A} (a : A) : det (pret a).
Proof. intros raw post o _. now left. Qed.
Lemma crash_lift {A} (r : R A) : r <> OutOfFuel -> crash (plift r) (fun bs => bs = [] /\ r = Panic).
Proof.
  intros H raw o _. cbn. split; auto. split; [intros ->; exists []; split; [apply seg_nil|auto]|]. now intros (_ & _ & _ & ->).
Qed.
Lemma det_lift {A} (r : R A) : det (plift r).
Proof. intros raw post o _. now left. Qed.
Lemma crash_u8 : crash get_u8 never.
Proof. apply calm_intro. intros raw o _. unfold get_u8. destruct (nth_error raw o); cbn; split; discriminate. Qed.
Lemma det_u8 : det get_u8.
Proof.
  intros raw post o _. unfold get_u8. destruct (nth_error raw o) as [x|] eqn:E; [left|right; cbn; eauto].
  rewrite nth_error_app1, E; auto. apply nth_error_Some. congruence.
Qed.
Lemma crash_skip_ret n : crash (skip n) never.
Proof. apply calm_intro. intros raw o _. cbn. split; discriminate. Qed.
Lemma det_skip n : det (skip n).
Proof. intros raw post o _. now left. Qed.

Lemma det_bind {A B} (p : P A) (k : A -> P B) : det p -> (forall a, det (k a)) -> det (pbind p k).
Proof.
  intros H1 H2 raw post o Hb. unfold pbind. destruct (H1 raw post o Hb) as [E|[e E]].
  - rewrite E. destruct (p raw o) as [[a|e| |] o1]; auto. now apply H2.
  - right. destruct (p raw o) as [[a|e'| |] o1]; cbn in E; try discriminate E. exists e'. reflexivity.
Qed.
Lemma crash_bind {A B} (p : P A) (k : A -> P B) L1 C1 C2 : exact p L1 -> crash p C1 -> (forall bs a, bytes bs -> L1 bs a -> crash (k a) (C2 a)) ->
  crash (pbind p k) (fun bs => C1 bs \/ exists b1 b2 a, bs = b1 ++ b2 /\ L1 b1 a /\ C2 a b2).
Proof.
  intros HE H1 H2 raw o Hb. unfold pbind. destruct (H1 raw o Hb) as [F1 P1]. destruct (p raw o) as [[a|e| |] o1] eqn:E; cbn [fst] in *.
  - pose proof E as E'. apply (HE raw o a o1 Hb) in E' as (b1 & S1 & -> & HL). destruct (H2 _ _ (seg_bytes Hb S1) HL raw (o + length b1)%nat Hb) as [F2 P2]. split; auto. rewrite P2. split.
    + intros (b2 & S2 & HC). exists (b1 ++ b2). split; [apply seg_app; auto|]. right. eauto 6.
    + intros (bs & S & [HC|(c1 & c2 & a' & -> & HL' & HC)]).
      * assert (X : Ok a = Panic) by (apply P1; eauto). discriminate X.
      * apply seg_app in S as [S1' S2']. assert (E2 : p raw o = (Ok a', (o + length c1)%nat)) by (apply HE; eauto). rewrite E in E2. injection E2 as <- E3. replace (o + length b1)%nat with (o + length c1)%nat by lia. eauto.
  - split; [discriminate|]. split; [intros X; discriminate X|]. intros (bs & S & [HC|(c1 & c2 & a' & -> & HL' & HC)]).
    + assert (X : @Err A e = Panic) by (apply P1; eauto). discriminate X.
    + apply seg_app in S as [S1' S2']. assert (E2 : p raw o = (Ok a', (o + length c1)%nat)) by (apply HE; eauto). rewrite E in E2. discriminate E2.
  - split; [discriminate|]. split; [|auto]. intros _. destruct P1 as [P1 _]. destruct (P1 eq_refl) as (bs & S & HC). eauto.
  - contradiction.
Qed.
(** the usual case: the first part does not crash *)
Lemma crash_seq {A B} (p : P A) (k : A -> P B) L1 C2 : exact p L1 -> crash p never -> (forall bs a, bytes bs -> L1 bs a -> crash (k a) (C2 a)) ->
  crash (pbind p k) (fun bs => exists b1 b2 a, bs = b1 ++ b2 /\ L1 b1 a /\ C2 a b2).
Proof. intros HE H1 H2. eapply crash_iff; [eapply crash_bind; eauto|]. unfold never. tauto. Qed.
Lemma crash_seq2 {A1 A2 B} (p : P (A1 * A2)) (k : A1 -> A2 -> P B) L1 C2 : exact p L1 -> crash p never -> (forall bs a1 a2, bytes bs -> L1 bs (a1, a2) -> crash (k a1 a2) (C2 a1 a2)) ->
  crash (pbind p (fun '(a1, a2) => k a1 a2)) (fun bs => exists b1 b2 a1 a2, bs = b1 ++ b2 /\ L1 b1 (a1, a2) /\ C2 a1 a2 b2).
Proof.
  intros HE H1 H2. eapply crash_iff; [eapply (crash_seq (C2 := fun '(a1, a2) => C2 a1 a2)); [exact HE|exact H1|]|].
  - intros bs [a1 a2] Hb HL. eauto.
  - intros bs _. split; [intros (b1 & b2 & [a1 a2] & H); eauto 6|intros (b1 & b2 & a1 & a2 & H); exists b1, b2, (a1, a2); auto].
Qed.
Lemma crash_seq3 {A1 A2 A3 B} (p : P (A1 * A2 * A3)) (k : A1 -> A2 -> A3 -> P B) L1 C2 : exact p L1 -> crash p never -> (forall bs a1 a2 a3, bytes bs -> L1 bs (a1, a2, a3) -> crash (k a1 a2 a3) (C2 a1 a2 a3)) ->
  crash (pbind p (fun '(a1, a2, a3) => k a1 a2 a3)) (fun bs => exists b1 b2 a1 a2 a3, bs = b1 ++ b2 /\ L1 b1 (a1, a2, a3) /\ C2 a1 a2 a3 b2).
Proof.
  intros HE H1 H2. eapply crash_iff; [eapply (crash_seq (C2 := fun '(a1, a2, a3) => C2 a1 a2 a3)); [exact HE|exact H1|]|].
  - intros bs [[a1 a2] a3] Hb HL. eauto.
  - intros bs _. split; [intros (b1 & b2 & [[a1 a2] a3] & H); eauto 7|intros (b1 & b2 & a1 & a2 & a3 & H); exists b1, b2, (a1, a2, a3); auto].
Qed.
(** nothing crashes *)
Lemma calm_bind {A B} (p : P A) (k : A -> P B) : crash p never -> (forall a, crash (k a) never) -> crash (pbind p k) never.
Proof.
  intros H1 H2. apply calm_intro. intros raw o Hb. unfold pbind. pose proof (calm_elim o H1 Hb) as [F1 P1]. destruct (p raw o) as [[a|e| |] o1] eqn:E; cbn [fst] in *; try contradiction; [|split; discriminate].
  now apply calm_elim.
Qed.
Lemma crash_skip {A} n (k : P A) C : crash k C -> (forall bs, C bs -> bs <> []) -> crash (get* _ := skip n in k) (fun bs => exists j b, bs = j ++ b /\ length j = n /\ C b).
Proof.
  intros H Hs raw o Hb. unfold pbind, skip. destruct (H raw (o + n)%nat Hb) as [F P1]. split; auto. rewrite P1. split.
  - intros (b & S & HC). pose proof (seg_length S (Hs _ HC)) as Hl. destruct (@seg_some raw o n ltac:(lia)) as (j & Lj & Sj).
    exists (j ++ b). split; [apply seg_app; rewrite Lj; auto|]. eauto.
  - intros (bs & S & j & b & -> & <- & HC). apply seg_app in S as [_ S]. eauto.
Qed.
Lemma calm_skip {A} n (k : P A) : crash k never -> crash (get* _ := skip n in k) never.
Proof. intros H. apply calm_bind; [apply crash_skip_ret|auto]. Qed.

Lemma crash_u16 : crash get_u16 never.
Proof. unfold get_u16. apply calm_bind; [apply crash_u8|intros]. apply calm_bind; [apply crash_u8|intros]. apply crash_ret. Qed.
Lemma det_u16 : det get_u16.
Proof. unfold get_u16. apply det_bind; [apply det_u8|intros]. apply det_bind; [apply det_u8|intros]. apply det_ret. Qed.
Lemma crash_u24 : crash get_u24 never.
Proof. unfold get_u24. do 3 (apply calm_bind; [apply crash_u8|intros]). apply crash_ret. Qed.
Lemma det_u24 : det get_u24.
Proof. unfold get_u24. do 3 (apply det_bind; [apply det_u8|intros]). apply det_ret. Qed.
Lemma crash_u32 : crash get_u32 never.
Proof. unfold get_u32. do 4 (apply calm_bind; [apply crash_u8|intros]). apply crash_ret. Qed.
Lemma det_u32 : det get_u32.
Proof. unfold get_u32. do 4 (apply det_bind; [apply det_u8|intros]). apply det_ret. Qed.

Lemma calm_pfold {S A} (f : S -> A -> P S) l : (forall s a, crash (f s a) never) -> forall s, crash (pfold f l s) never.
Proof. intros H. induction l as [|a l IH]; intros s; cbn [pfold]; [apply crash_ret|]. apply calm_bind; auto. Qed.
Lemma det_pfold {S A} (f : S -> A -> P S) l : (forall s a, det (f s a)) -> forall s, det (pfold f l s).
Proof. intros H. induction l as [|a l IH]; intros s; cbn [pfold]; [apply det_ret|]. apply det_bind; auto. Qed.
Lemma crash_take n : crash (take n) never.
Proof. apply calm_pfold. intros. apply calm_bind; [apply crash_u8|intros; apply crash_ret]. Qed.
Lemma det_take n : det (take n).
Proof. apply det_pfold. intros. apply det_bind; [apply det_u8|intros; apply det_ret]. Qed.

(** loops *)
Section Loop.
Variables (S A : Type) (f : S -> P (S + A)) (L : S -> list Z -> S + A -> Prop).
Hypothesis Hf : forall s, exact (f s) (L s).
Hypothesis Hstrict : forall s, strict (L s).
Lemma progress s raw o r o' : bytes raw -> f s raw o = (Ok r, o') -> (o < o' <= length raw)%nat.
Proof.
  intros Hb E. apply (@Hf s raw o r o' Hb) in E as (b1 & S1 & -> & HL). pose proof (seg_length S1 (@Hstrict _ _ _ HL)) as Hl. destruct b1; [destruct (@Hstrict _ _ _ HL eq_refl)|]. cbn in *. lia.
Qed.
Lemma calm_loop : (forall s, crash (f s) never) -> forall s, crash (loop f s) never.
Proof.
  intros Hc s. apply calm_intro. intros raw o Hb. unfold loop.
  assert (G : forall n s o, (length raw < o + n)%nat -> (0 < n)%nat -> fst (loop_fuel n f s raw o) <> OutOfFuel /\ fst (loop_fuel n f s raw o) <> Panic); [|apply G; lia].
  induction n as [|n IH]; intros s0 o0 Hn H0; [lia|]. cbn [loop_fuel]. unfold pbind. pose proof (calm_elim o0 (Hc s0) Hb) as [F1 P1].
  destruct (f s0 raw o0) as [[[s'|b]|e| |] o1] eqn:E; cbn [fst] in *; try contradiction; try (split; discriminate).
  apply progress in E; auto. apply IH; lia.
Qed.
Lemma det_loop : (forall s, det (f s)) -> forall s, det (loop f s).
Proof.
  intros Hd s raw post o Hbb. pose proof Hbb as Hb. unfold bytes in Hb. apply Forall_app in Hb as [Hb _]. unfold loop.
  assert (G : forall n m s o, (length raw < o + m)%nat -> (0 < m)%nat -> (length (raw ++ post) < o + n)%nat -> (0 < n)%nat ->
    loop_fuel n f s (raw ++ post) o = loop_fuel m f s raw o \/ exists e, fst (loop_fuel m f s raw o) = Err e); [|apply G; lia].
  intros n m. revert n. induction m as [|m IH]; intros n s0 o0 Hm H0 Hn Hn0; [lia|]. destruct n as [|n]; [lia|]. cbn [loop_fuel]. unfold pbind.
  destruct (Hd s0 raw post o0 Hbb) as [E|[e E]].
  - rewrite E. destruct (f s0 raw o0) as [[[s'|b]|e| |] o1] eqn:E1; auto. apply progress in E1; auto. rewrite app_length in *. apply IH; lia.
  - right. destruct (f s0 raw o0) as [[r|e'| |] o1]; cbn in E; try discriminate E. exists e'. reflexivity.
Qed.
End Loop.
(** a character at a time *)
Lemma exact_chars {S A} (f : S -> P (S + A)) (g : S -> Z -> S + A) s : (forall s raw o, f s raw o = (get* v := get_u8 in pret (g s v)) raw o) ->
  exact (f s) (fun bs r => exists v, bs = [v] /\ byte v /\ r = g s v).
Proof.
  intros E. eapply exact_ext; [apply E|]. eapply exact_iff; [eapply exact_bind; [apply exact_u8|]; intros ? v _ _; apply exact_ret|]. intros bs r _. split.
  - intros (b1 & b2 & v & -> & [-> Hv] & -> & ->). exists v. auto.
  - intros (v & -> & Hv & ->). exists [v], [], v. auto.
Qed.
Lemma char_loop {S A} (f : S -> P (S + A)) (g : S -> Z -> S + A) s : (forall s raw o, f s raw o = (get* v := get_u8 in pret (g s v)) raw o) -> crash (loop f s) never /\ det (loop f s).
Proof.
  intros E. split.
  - eapply calm_loop with (L := fun s bs r => exists v, bs = [v] /\ byte v /\ r = g s v).
    + intros s0. now apply exact_chars.
    + intros s0 bs r (v & -> & _). discriminate.
    + intros s0. eapply crash_ext; [apply E|]. apply calm_bind; [apply crash_u8|intros; apply crash_ret].
  - eapply det_loop with (L := fun s bs r => exists v, bs = [v] /\ byte v /\ r = g s v).
    + intros s0. now apply exact_chars.
    + intros s0 bs r (v & -> & _). discriminate.
    + intros s0. eapply det_ext; [apply E|]. apply det_bind; [apply det_u8|intros; apply det_ret].
Qed.

(** a file cut short *)
Lemma cut_short {A} (p : P A) L raw n v o : exact p L -> det p -> bytes raw -> p raw 0%nat = (Ok v, o) -> (n < o)%nat -> exists e, fst (p (firstn n raw) 0%nat) = Err e.
Proof.
  intros HE Hd Hb E Hn. assert (Hbf : bytes (firstn n raw)). { rewrite <- (firstn_skipn n raw) in Hb. unfold bytes in Hb. apply Forall_app in Hb. tauto. }
  destruct (Hd (firstn n raw) (skipn n raw) 0%nat ltac:(now rewrite firstn_skipn)) as [X|X]; auto. rewrite firstn_skipn, E in X. symmetry in X. apply (HE _ _ _ _ Hbf) in X as (bs & S & -> & _). exfalso.
  destruct bs as [|x bs]; [cbn in Hn; lia|]. apply seg_length in S; [|discriminate]. rewrite firstn_length in S. lia.
Qed.

(** ** The board *)
Section Board.
Variables (row column : nat) (place : Z -> Z -> pos) (good : Z -> Z -> bool) (put : board -> Z -> Z -> R board) (bad : R board).
Hypothesis Hput : forall b c d, rect row column b -> byte c -> byte d ->
  if good c d then inb row column (place c d) /\ put b c d = Ok (upd b (place c d) (-1)) else put b c d = bad.
Hypothesis Hbad : forall b, bad <> Ok b.
Hypothesis Hbad2 : bad <> OutOfFuel.

Lemma put_step b c d : rect row column b -> byte c -> byte d ->
  if good c d then inb row column (place c d) /\ put b c d = Ok (upd b (place c d) (-1)) else forall b', put b c d <> Ok b'.
Proof. intros Hr Hc Hd. pose proof (@Hput b c d Hr Hc Hd) as H. destruct (good c d); auto. rewrite H. auto. Qed.
Lemma good_inb c d : byte c -> byte d -> good c d = true -> inb row column (place c d).
Proof. intros Hc Hd Hg. pose proof (@Hput (mkboard row column 0) c d (rect_mkboard _ _ _) Hc Hd) as H. rewrite Hg in H. apply H. Qed.
Lemma goods_inb l : bytes (pairs_of l) -> Forall (fun '(c, d) => good c d = true) l -> Forall (fun '(c, d) => inb row column (place c d)) l.
Proof.
  induction l as [|[c d] l IH]; intros Hb Hg; [constructor|]. inversion Hg as [|? ? G Hg']; subst. inversion Hb as [|? ? Hc Hb1]; subst. inversion Hb1 as [|? ? Hd Hb2]; subst. constructor; auto. now apply good_inb.
Qed.
Lemma crash_mines n : forall k b, rect row column b ->
  crash (pfold (mine_step put) (seq k n) b) (fun bs => bad = Panic /\ exists l c d, bs = pairs_of l ++ [c; d] /\ (length l < n)%nat /\ Forall (fun '(c, d) => good c d = true) l /\ good c d = false).
Proof.
  induction n as [|n IH]; intros k b Hr; cbn [seq pfold].
  - eapply crash_iff; [apply crash_ret|]. intros bs _. split; [intros []|]. intros (_ & l & c & d & _ & X & _). lia.
  - unfold mine_step at 1. eapply crash_iff.
    + eapply crash_bind with (L1 := fun bs b1 => exists c d, bs = [c; d] /\ byte c /\ byte d /\ good c d = true /\ b1 = upd b (place c d) (-1))
        (C1 := fun bs => exists c d, bs = [c; d] /\ byte c /\ byte d /\ good c d = false /\ bad = Panic)
        (C2 := fun _ bs => bad = Panic /\ exists l c d, bs = pairs_of l ++ [c; d] /\ (length l < n)%nat /\ Forall (fun '(c, d) => good c d = true) l /\ good c d = false).
      * eapply exact_iff; [eapply exact_bind; [apply exact_u8|]; intros ? c _ [_ Hc]; eapply exact_bind; [apply exact_u8|]; intros ? d _ [_ Hd]; apply exact_lift|].
        intros bs b1 _. split.
        -- intros (? & ? & c & -> & [-> Hc] & ? & ? & d & -> & [-> Hd] & -> & E). exists c, d. split; auto. split; auto. split; auto. pose proof (@put_step b c d Hr Hc Hd) as H.
           destruct (good c d); [|destruct (H _ E)]. destruct H as [_ H]. split; auto. congruence.
        -- intros (c & d & -> & Hc & Hd & Hg & ->). exists [c], [d], c. split; auto. split; auto. exists [d], [], d. split; auto. split; auto. split; auto.
           pose proof (@put_step b c d Hr Hc Hd) as H. rewrite Hg in H. apply H.
      * eapply crash_iff; [eapply crash_seq; [apply exact_u8|apply crash_u8|]; intros ? c _ [_ Hc]; eapply crash_seq; [apply exact_u8|apply crash_u8|]; intros ? d _ [_ Hd]; apply crash_lift|].
        -- pose proof (@Hput b c d Hr Hc Hd) as H. destruct (good c d); [destruct H as [_ ->]; discriminate|rewrite H; auto].
        -- intros bs _. split.
           ++ intros (? & ? & c & -> & [-> Hc] & ? & ? & d & -> & [-> Hd] & -> & E). exists c, d. split; auto. split; auto. split; auto. pose proof (@Hput b c d Hr Hc Hd) as H.
              destruct (good c d); [destruct H as [_ H]; congruence|]. split; congruence.
           ++ intros (c & d & -> & Hc & Hd & Hg & HP). exists [c], [d], c. split; auto. split; auto. exists [d], [], d. split; auto. split; auto. split; auto.
              pose proof (@Hput b c d Hr Hc Hd) as H. rewrite Hg in H. congruence.
      * intros ? b1 _ (c & d & _ & Hc & Hd & Hg & ->). apply IH. now apply rect_upd.
    + intros bs Hb. cbn beta. split.
      * intros [(c & d & -> & _ & _ & Hg & HP)|(? & ? & b1 & -> & (c & d & -> & Hc & Hd & Hg & ->) & HP & l & c' & d' & -> & Hl & HF & Hg')].
        -- split; auto. exists [], c, d. split; auto. split; [cbn; lia|]. split; auto.
        -- split; auto. exists ((c, d) :: l), c', d'. split; auto. split; [cbn; lia|]. split; auto.
      * intros (HP & l & c & d & -> & Hl & HF & Hg). destruct l as [|[c0 d0] l].
        -- left. exists c, d. inversion Hb as [|? ? Hc Hb1]; subst. inversion Hb1 as [|? ? Hd Hb2]; subst. auto 6.
        -- right. inversion HF; subst. inversion Hb as [|? ? Hc Hb1]; subst. inversion Hb1 as [|? ? Hd Hb2]; subst.
           exists [c0; d0], (pairs_of l ++ [c; d]), (upd b (place c0 d0) (-1)). split; auto. split; [exists c0, d0; auto 7|]. split; auto. exists l, c, d. cbn in Hl. split; auto. split; [lia|auto].
Qed.
Lemma exact_board n : exact (get* b := pfold (mine_step put) (seq 0 n) (mkboard row column 0) in plift (cal_board_numbers b))
  (fun bs b => (1 <= row)%nat /\ exists l, bs = pairs_of l /\ length l = n /\ Forall (fun '(c, d) => good c d = true) l /\ board_of row column (map (fun '(c, d) => place c d) l) b).
Proof.
  eapply exact_iff.
  - eapply exact_bind; [|intros ? b _ _; apply exact_lift]. apply (@exact_mines row column place good put); [|apply rect_mkboard]. apply put_step.
  - intros bs b Hb. split.
    + intros (b1 & b2 & a & -> & (l & -> & L & HF & ->) & -> & E). rewrite app_nil_r in *. apply (@numbers_exact row column place l b (goods_inb Hb HF)) in E as [H0 HB]. split; auto. eauto.
    + intros (H0 & l & -> & L & HF & HB). exists (pairs_of l), [], (marked_board place (mkboard row column 0) l). split; [now rewrite app_nil_r|]. split; [eauto|]. split; auto. apply (@numbers_exact row column place l b (goods_inb Hb HF)). auto.
Qed.
Lemma numbers_crash l : Forall (fun '(c, d) => inb row column (place c d)) l ->
  cal_board_numbers (marked_board place (mkboard row column 0) l) <> OutOfFuel /\ (cal_board_numbers (marked_board place (mkboard row column 0) l) = Panic <-> row = 0%nat).
Proof.
  intros Hl. destruct (Nat.eq_dec row 0) as [E0|N0].
  - assert (Hr : rect row column (marked_board place (mkboard row column 0) l)) by (apply marked_rect, rect_mkboard). destruct Hr as [Hlen _]. destruct (marked_board place (mkboard row column 0) l); [|cbn in Hlen; lia].
    split; [discriminate|]. split; auto.
  - assert (Hr : rect row column (marked_board place (mkboard row column 0) l)) by (apply marked_rect, rect_mkboard).
    assert (H01 : forall p, inb row column p -> cell (marked_board place (mkboard row column 0) l) p = 0 \/ cell (marked_board place (mkboard row column 0) l) p = -1).
    { intros p Hp. rewrite (@marked_cell row column place l (mkboard row column 0) p (rect_mkboard _ _ _) Hl). destruct (existsb _ _); auto. left. now apply cell_mkboard. }
    destruct (@cal_board_numbers_ok row column _ Hr ltac:(lia) H01) as (b' & -> & _). split; [discriminate|]. split; [discriminate|lia].
Qed.
Lemma crash_board n : crash (get* b := pfold (mine_step put) (seq 0 n) (mkboard row column 0) in plift (cal_board_numbers b))
  (fun bs => (bad = Panic /\ exists l c d, bs = pairs_of l ++ [c; d] /\ (length l < n)%nat /\ Forall (fun '(c, d) => good c d = true) l /\ good c d = false) \/
             (row = 0%nat /\ n = 0%nat /\ bs = [])).
Proof.
  eapply crash_iff.
  - eapply crash_bind with (C2 := fun a bs => bs = [] /\ cal_board_numbers a = Panic).
    + apply (@exact_mines row column place good put); [|apply rect_mkboard]. apply put_step.
    + apply crash_mines. apply rect_mkboard.
    + intros ? b Hb (l & -> & L & HF & ->). apply crash_lift. apply numbers_crash. now apply goods_inb.
  - intros bs Hb. cbn beta. split; (intros [H|H]; [auto|]); right.
    + destruct H as (b1 & b2 & a & -> & (l & -> & L & HF & ->) & -> & E). rewrite app_nil_r in *. pose proof (goods_inb Hb HF) as Hin. apply numbers_crash in E; auto. split; auto.
      destruct l as [|[c d] l]; [auto|]. inversion Hin as [|? ? X _]; clear Hin; subst x l0. cbn beta iota in X. unfold inb in X. destruct X as [X _]. lia.
    + destruct H as (H0 & -> & ->). exists [], [], (mkboard row column 0). split; auto. split; [exists []; auto|]. split; auto. now apply (@numbers_crash []).
Qed.
End Board.
Lemma det_board put n b : det (get* b := pfold (mine_step put) (seq 0 n) b in plift (cal_board_numbers b)).
Proof. apply det_bind; [|intros; apply det_lift]. apply det_pfold. intros. unfold mine_step. apply det_bind; [apply det_u8|intros]. apply det_bind; [apply det_u8|intros]. apply det_lift. Qed.
