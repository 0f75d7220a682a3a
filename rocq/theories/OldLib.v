(** * OldLib: readers and the byte strings they accept. *)
From Verif Require Import Base Spec BaseFacts LayMine LayMineProofs MineBoard Evf EvfSpec EvfProofs EvfSafe OldVideos OldSpec.
Open Scope Z_scope.

(** the bytes [bs] stand at offset [o] *)
Definition seg (raw : list Z) (o : nat) (bs : list Z) : Prop := forall i x, nth_error bs i = Some x -> nth_error raw (o + i) = Some x.

Lemma seg_nil raw o : seg raw o [].
Proof. intros [|i] x H; discriminate H. Qed.
Lemma seg_app raw o b1 b2 : seg raw o (b1 ++ b2) <-> seg raw o b1 /\ seg raw (o + length b1) b2.
Proof.
  split.
  - intros H. split; intros i x Hi.
    + apply H. rewrite nth_error_app1; auto. apply nth_error_Some. congruence.
    + replace (o + length b1 + i)%nat with (o + (length b1 + i))%nat by lia. apply H. rewrite nth_error_app2 by lia. now replace (length b1 + i - length b1)%nat with i by lia.
  - intros [H1 H2] i x Hi. destruct (Nat.lt_ge_cases i (length b1)).
    + rewrite nth_error_app1 in Hi by auto. now apply H1.
    + rewrite nth_error_app2 in Hi by auto. apply H2 in Hi. now replace (o + i)%nat with (o + length b1 + (i - length b1))%nat by lia.
Qed.
Lemma seg_cons raw o x bs : seg raw o (x :: bs) <-> nth_error raw o = Some x /\ seg raw (S o) bs.
Proof.
  change (x :: bs) with ([x] ++ bs). rewrite seg_app. cbn [length]. rewrite Nat.add_1_r. split; intros [H1 H2]; split; auto.
  - specialize (H1 0%nat x eq_refl). now rewrite Nat.add_0_r in H1.
  - intros [|[|i]] y E; [injection E as <-|discriminate E|discriminate E]. now rewrite Nat.add_0_r.
Qed.
Lemma seg_length raw o bs : seg raw o bs -> bs <> [] -> (o + length bs <= length raw)%nat.
Proof.
  intros H Hn. destruct bs as [|x l] using rev_ind; [contradiction|]. clear IHl. apply seg_app in H as [_ H]. apply seg_cons in H as [H _].
  assert (nth_error raw (o + length l) <> None) by congruence. apply nth_error_Some in H0. rewrite app_length. cbn. lia.
Qed.
Lemma seg_det raw o b1 b2 : seg raw o b1 -> seg raw o b2 -> length b1 = length b2 -> b1 = b2.
Proof.
  revert o b2. induction b1 as [|x b1 IH]; intros o [|y b2] H1 H2 L; try discriminate L; auto.
  apply seg_cons in H1 as [E1 H1]. apply seg_cons in H2 as [E2 H2]. assert (x = y) by congruence. subst. f_equal. eapply IH; eauto.
Qed.
Lemma seg_some raw o n : (o + n <= length raw)%nat -> exists bs, length bs = n /\ seg raw o bs.
Proof.
  revert o. induction n as [|n IH]; intros o H; [exists []; split; auto; apply seg_nil|]. destruct (IH (S o) ltac:(lia)) as (bs & L & Hs).
  destruct (nth_error raw o) as [x|] eqn:E; [|apply nth_error_None in E; lia]. exists (x :: bs). split; [cbn; congruence|]. apply seg_cons. auto.
Qed.
Lemma seg_bytes raw o bs : bytes raw -> seg raw o bs -> bytes bs.
Proof.
  intros Hb H. apply Forall_forall. intros x Hx. apply In_nth_error in Hx as [i Hi]. apply H in Hi. apply nth_error_In in Hi. revert Hi. apply Forall_forall. exact Hb.
Qed.
Lemma seg_file raw bs : seg raw 0 bs <-> exists rest, raw = bs ++ rest.
Proof.
  split.
  - revert raw. induction bs as [|x bs IH]; intros raw H; [now exists raw|]. apply seg_cons in H as [E H]. destruct raw as [|y raw]; [discriminate E|]. cbn in E. injection E as ->.
    destruct (IH raw) as [rest ->]; [|now exists rest]. intros i z Hz. now apply H in Hz.
  - intros [rest ->] i x Hi. cbn. rewrite nth_error_app1; auto. apply nth_error_Some. congruence.
Qed.

(** [p] accepts exactly the byte strings of [L], with these results. *)
Definition exact {A} (p : P A) (L : list Z -> A -> Prop) : Prop := forall raw o a o', bytes raw ->
  (p raw o = (Ok a, o') <-> exists bs, seg raw o bs /\ o' = (o + length bs)%nat /\ L bs a).
(** it reads something *)
Definition strict {A} (L : list Z -> A -> Prop) : Prop := forall bs a, L bs a -> bs <> [].

Lemma exact_iff {A} (p : P A) L L' : exact p L -> (forall bs a, bytes bs -> (L bs a <-> L' bs a)) -> exact p L'.
Proof.
  intros H E raw o a o' Hb. rewrite (H raw o a o' Hb). split; intros (bs & H1 & H2 & H3); exists bs; (split; [auto|]); (split; [auto|]); apply E; auto; eapply seg_bytes; eauto.
Qed.
Lemma exact_ext {A} (p q : P A) L : (forall raw o, p raw o = q raw o) -> exact q L -> exact p L.
Proof. intros E H raw o a o' Hb. rewrite E. now apply H. Qed.
Lemma exact_ret {A} (a : A) : exact (pret a) (fun bs b => bs = [] /\ b = a).
Proof.
  intros raw o b o' _. unfold pret. split.
  - intros E. injection E as <- <-. exists []. split; [apply seg_nil|]. split; [cbn; lia|auto].
  - intros (bs & _ & -> & -> & ->). cbn. now rewrite Nat.add_0_r.
Qed.
Lemma exact_lift {A} (r : R A) : exact (plift r) (fun bs b => bs = [] /\ r = Ok b).
Proof.
  intros raw o b o' _. unfold plift. split.
  - intros E. injection E as -> <-. exists []. split; [apply seg_nil|]. split; [cbn; lia|auto].
  - intros (bs & _ & -> & -> & ->). cbn. now rewrite Nat.add_0_r.
Qed.
Lemma exact_bind {A B} (p : P A) (k : A -> P B) L1 L2 : exact p L1 -> (forall bs a, bytes bs -> L1 bs a -> exact (k a) (L2 a)) ->
  exact (pbind p k) (fun bs b => exists b1 b2 a, bs = b1 ++ b2 /\ L1 b1 a /\ L2 a b2 b).
Proof.
  intros H1 H2 raw o b o' Hb. unfold pbind. split.
  - destruct (p raw o) as [[a|e| |] o1] eqn:E; try (intros X; discriminate X). intros X.
    apply (H1 raw o a o1 Hb) in E as (b1 & S1 & -> & HL). apply (H2 _ _ (seg_bytes Hb S1) HL) in X as (b2 & S2 & -> & HL2); auto.
    exists (b1 ++ b2). split; [apply seg_app; auto|]. split; [rewrite app_length; lia|]. eauto 8.
  - intros (bs & S & -> & b1 & b2 & a & -> & HL1 & HL2). apply seg_app in S as [S1 S2].
    assert (E : p raw o = (Ok a, (o + length b1)%nat)) by (apply H1; eauto). rewrite E. apply (H2 _ _ (seg_bytes Hb S1) HL1); auto.
    exists b2. split; auto. split; auto. rewrite app_length. lia.
Qed.
Lemma exact_u8 : exact get_u8 (fun bs x => bs = [x] /\ byte x).
Proof.
  intros raw o x o' Hb. unfold get_u8. split.
  - destruct (nth_error raw o) as [y|] eqn:E; intros X; [|discriminate X]. injection X as <- <-.
    exists [y]. split; [apply seg_cons; split; auto; apply seg_nil|]. split; [cbn; lia|]. split; auto. apply nth_error_In in E. revert E. apply Forall_forall. exact Hb.
  - intros (bs & S & -> & -> & _). apply seg_cons in S as [-> _]. cbn. f_equal. lia.
Qed.
Lemma exact_u16 : exact get_u16 (fun bs x => exists a b, bs = [a; b] /\ byte a /\ byte b /\ x = a * 256 + b).
Proof.
  eapply exact_iff.
  - unfold get_u16. eapply exact_bind; [apply exact_u8|]. intros ? a _ [_ Ha]. eapply exact_bind; [apply exact_u8|]. intros ? b _ [_ H2]. apply exact_ret.
  - intros bs x _. split.
    + intros (b1 & b2 & a & -> & [-> Ha] & b3 & b4 & b & -> & [-> Hb] & -> & ->). exists a, b. split; auto. split; auto. split; auto. now apply lor16.
    + intros (a & b & -> & Ha & Hb & ->). exists [a], [b], a. split; auto. split; auto. exists [b], [], b. split; auto. split; auto. split; auto. symmetry. now apply lor16.
Qed.
Lemma exact_u24 : exact get_u24 (fun bs x => exists a b c, bs = [a; b; c] /\ byte a /\ byte b /\ byte c /\ x = a * 65536 + b * 256 + c).
Proof.
  eapply exact_iff.
  - unfold get_u24. do 2 (eapply exact_bind; [apply exact_u8|]; intros ? ? _ [_ ?]). eapply exact_bind; [apply exact_u8|]. intros. apply exact_ret.
  - intros bs x _. split.
    + intros (? & ? & a & -> & [-> Ha] & ? & ? & b & -> & [-> Hb] & ? & ? & c & -> & [-> Hc] & -> & ->). exists a, b, c. split; auto. split; auto. split; auto. split; auto. now apply lor24.
    + intros (a & b & c & -> & Ha & Hb & Hc & ->). exists [a], [b; c], a. split; auto. split; auto. exists [b], [c], b. split; auto. split; auto. exists [c], [], c. split; auto. split; auto. split; auto. symmetry. now apply lor24.
Qed.
Lemma exact_u32 : exact get_u32 (fun bs x => exists a b c d, bs = [a; b; c; d] /\ byte a /\ byte b /\ byte c /\ byte d /\ x = a * 16777216 + b * 65536 + c * 256 + d).
Proof.
  eapply exact_iff.
  - unfold get_u32. do 3 (eapply exact_bind; [apply exact_u8|]; intros ? ? _ [_ ?]). eapply exact_bind; [apply exact_u8|]. intros. apply exact_ret.
  - intros bs x _. split.
    + intros (? & ? & a & -> & [-> Ha] & ? & ? & b & -> & [-> Hb] & ? & ? & c & -> & [-> Hc] & ? & ? & d & -> & [-> Hd] & -> & ->). exists a, b, c, d. do 5 (split; auto). now apply lor32.
    + intros (a & b & c & d & -> & Ha & Hb & Hc & Hd & ->). exists [a], [b; c; d], a. split; auto. split; auto. exists [b], [c; d], b. split; auto. split; auto.
      exists [c], [d], c. split; auto. split; auto. exists [d], [], d. split; auto. split; auto. split; auto. symmetry. now apply lor32.
Qed.
(** skipped bytes stand before something that is read *)
Lemma exact_skip {A} n (k : P A) L : exact k L -> strict L -> exact (get* _ := skip n in k) (fun bs a => exists j b, bs = j ++ b /\ length j = n /\ L b a).
Proof.
  intros H Hs raw o a o' Hb. unfold pbind, skip. rewrite (H raw (o + n)%nat a o' Hb). split.
  - intros (b & S & -> & HL). pose proof (seg_length S (Hs _ _ HL)) as Hl. destruct (@seg_some raw o n ltac:(lia)) as (j & Lj & Sj).
    exists (j ++ b). split; [apply seg_app; rewrite Lj; auto|]. split; [rewrite app_length; lia|]. eauto.
  - intros (bs & S & -> & j & b & -> & <- & HL). apply seg_app in S as [_ S]. exists b. split; auto. split; auto. rewrite app_length. lia.
Qed.

(** [take] *)
Lemma take_go n : forall k acc, exact (pfold (fun l (_ : nat) => get* x := get_u8 in pret (l ++ [x])) (seq k n) acc) (fun bs l => length bs = n /\ l = acc ++ bs).
Proof.
  induction n as [|n IH]; intros k acc; cbn [seq pfold].
  - eapply exact_iff; [apply exact_ret|]. intros bs l _. split.
    + intros [-> ->]. split; auto. now rewrite app_nil_r.
    + intros [L ->]. destruct bs; [|discriminate L]. now rewrite app_nil_r.
  - eapply exact_iff.
    + eapply exact_bind; [|intros ? a _ _; apply IH]. eapply exact_bind; [apply exact_u8|]. intros. apply exact_ret.
    + intros bs l Hb. split.
      * intros (b1 & b2 & a & -> & (b3 & b4 & x & -> & [-> Hx] & -> & ->) & L & ->). split; [cbn; congruence|]. now rewrite <- app_assoc.
      * intros [L ->]. destruct bs as [|x bs]; [discriminate L|]. inversion Hb; subst. exists [x], bs, (acc ++ [x]). split; auto. split; [exists [x], [], x; auto|].
        cbn in L. split; [lia|]. now rewrite <- app_assoc.
Qed.
Lemma exact_take n : exact (take n) (fun bs l => length bs = n /\ l = bs).
Proof. exact (@take_go n 0%nat []). Qed.

(** ** Loops *)
Section Loop.
Variables (S A : Type) (f : S -> P (S + A)) (L : S -> list Z -> S + A -> Prop).
Hypothesis Hf : forall s, exact (f s) (L s).
Hypothesis Hstrict : forall s, strict (L s).
(** rounds *)
Inductive rounds : S -> list Z -> A -> Prop :=
| rounds_end : forall s bs a, L s bs (inr a) -> rounds s bs a
| rounds_next : forall s b1 b2 s' a, L s b1 (Datatypes.inl s') -> rounds s' b2 a -> rounds s (b1 ++ b2) a.

Lemma loop_fuel_exact fuel : forall s raw o a o', bytes raw -> (length raw < o + fuel)%nat -> (0 < fuel)%nat ->
  (loop_fuel fuel f s raw o = (Ok a, o') <-> exists bs, seg raw o bs /\ o' = (o + length bs)%nat /\ rounds s bs a).
Proof.
  induction fuel as [|n IH]; intros s raw o a o' Hb Hn H0; [lia|]. cbn [loop_fuel]. unfold pbind. split.
  - destruct (f s raw o) as [[[s'|b]|e| |] o1] eqn:E; try (intros X; discriminate X); intros X; apply (@Hf s raw o _ o1 Hb) in E as (b1 & S1 & -> & HL).
    + pose proof (seg_length S1 (@Hstrict _ _ _ HL)) as Hl. assert (0 < length b1)%nat. { destruct b1; [destruct (@Hstrict _ _ _ HL eq_refl)|cbn; lia]. }
      apply IH in X as (b2 & S2 & -> & HR); auto; [|lia|lia].
      exists (b1 ++ b2). split; [apply seg_app; auto|]. split; [rewrite app_length; lia|]. eapply rounds_next; eauto.
    + injection X as <- <-. exists b1. split; auto. split; auto. now apply rounds_end.
  - intros (bs & Sg & -> & HR). inversion HR as [s1 bs1 a1 HL|s1 b1 b2 s' a1 HL HR']; subst.
    + assert (E : f s raw o = (Ok (inr a), (o + length bs)%nat)) by (apply (@Hf s); eauto). rewrite E. reflexivity.
    + apply seg_app in Sg as [S1 S2]. assert (E : f s raw o = (Ok (Datatypes.inl s'), (o + length b1)%nat)) by (apply (@Hf s); eauto). rewrite E.
      pose proof (seg_length S1 (@Hstrict _ _ _ HL)) as Hl. assert (0 < length b1)%nat. { destruct b1; [destruct (@Hstrict _ _ _ HL eq_refl)|cbn; lia]. }
      apply IH; auto; [lia|lia|]. exists b2. split; auto. split; auto. rewrite app_length. lia.
Qed.
Lemma exact_loop s : exact (loop f s) (rounds s).
Proof. intros raw o a o' Hb. apply loop_fuel_exact; auto; lia. Qed.
Lemma rounds_strict s : strict (rounds s).
Proof. intros bs a H. inversion H as [s1 bs1 a1 HL|s1 b1 b2 s' a1 HL HR']; subst; [apply (@Hstrict _ _ _ HL)|]. intros E. apply app_eq_nil in E as [-> _]. apply (@Hstrict _ _ _ HL eq_refl). Qed.
Lemma loop_fuel_ends fuel : (forall s raw o, bytes raw -> fst (f s raw o) <> OutOfFuel) ->
  forall s raw o, bytes raw -> (length raw < o + fuel)%nat -> (0 < fuel)%nat -> fst (loop_fuel fuel f s raw o) <> OutOfFuel.
Proof.
  intros Hnf. induction fuel as [|n IH]; intros s raw o Hb Hn H0; [lia|]. cbn [loop_fuel]. unfold pbind. specialize (Hnf s raw o Hb).
  destruct (f s raw o) as [[[s'|b]|e| |] o1] eqn:E; cbn in *; try discriminate; auto.
  apply (@Hf s raw o _ o1 Hb) in E as (b1 & S1 & -> & HL). pose proof (seg_length S1 (@Hstrict _ _ _ HL)) as Hl. assert (0 < length b1)%nat. { destruct b1; [destruct (@Hstrict _ _ _ HL eq_refl)|cbn; lia]. }
  apply IH; auto; lia.
Qed.
End Loop.

(** [until], [seek] *)
Lemma until_rounds c acc bs l : bytes bs -> (rounds (fun acc0 b r => exists v, b = [v] /\ byte v /\ r = if v =? c then inr acc0 else Datatypes.inl (acc0 ++ [v])) acc bs l <->
  exists s, bs = s ++ [c] /\ ~ In c s /\ l = acc ++ s).
Proof.
  intros Hb. split.
  - induction 1 as [acc bs l (v & -> & Hv & E)|acc b1 b2 acc' l (v & -> & Hv & E) HR IH].
    + destruct (Z.eqb_spec v c) as [->|]; [|discriminate E]. injection E as ->. exists []. split; auto. split; auto. now rewrite app_nil_r.
    + destruct (Z.eqb_spec v c) as [->|]; [discriminate E|]. injection E as ->. inversion Hb; subst. destruct IH as (s & -> & Hn & ->); auto. exists (v :: s). split; auto. split; [intros [X|X]; contradiction|]. now rewrite <- app_assoc.
  - intros (s & -> & Hn & ->). revert acc. induction s as [|v s IH]; intros acc.
    + apply rounds_end. exists c. inversion Hb; subst. split; auto. split; auto. now rewrite Z.eqb_refl, app_nil_r.
    + change ((v :: s) ++ [c]) with ([v] ++ (s ++ [c])). inversion Hb; subst. apply rounds_next with (s' := acc ++ [v]).
      * exists v. split; auto. split; auto. destruct (Z.eqb_spec v c); auto. subst. destruct Hn. now left.
      * replace (acc ++ v :: s) with ((acc ++ [v]) ++ s) by now rewrite <- app_assoc. apply IH; auto. intros X. apply Hn. now right.
Qed.
Lemma exact_until c : exact (until c) (fun bs s => bs = s ++ [c] /\ ~ In c s).
Proof.
  unfold until. eapply exact_iff.
  - eapply exact_loop with (L := fun acc0 b r => exists v, b = [v] /\ byte v /\ r = if v =? c then inr acc0 else Datatypes.inl (acc0 ++ [v])).
    + intros s. eapply exact_iff; [eapply exact_bind; [apply exact_u8|]; intros ? v _ _|].
      * instantiate (1 := fun v bs r => bs = [] /\ r = if v =? c then inr s else Datatypes.inl (s ++ [v])). cbn beta. destruct (v =? c); apply exact_ret.
      * intros bs r _. split.
        -- intros (b1 & b2 & v & -> & [-> Hv] & -> & ->). exists v. auto.
        -- intros (v & -> & Hv & ->). exists [v], [], v. auto.
    + intros s bs a (v & -> & _). discriminate.
  - intros bs s Hb. cbn beta. rewrite (until_rounds c [] s Hb). cbn [app]. split.
    + intros (s' & -> & Hn & ->). auto.
    + intros [-> Hn]. exists s. auto.
Qed.
Lemma exact_seek c : exact (seek c) (fun bs (_ : unit) => exists s, bs = s ++ [c] /\ ~ In c s).
Proof.
  unfold seek. eapply exact_iff.
  - eapply exact_loop with (L := fun (_ : unit) b (r : unit + unit) => exists v, b = [v] /\ byte v /\ r = if v =? c then inr tt else Datatypes.inl tt).
    + intros s. eapply exact_iff; [eapply exact_bind; [apply exact_u8|]; intros ? v _ _|].
      * instantiate (1 := fun v bs (r : unit + unit) => bs = [] /\ r = if v =? c then inr tt else Datatypes.inl tt). cbn beta. destruct (v =? c); apply exact_ret.
      * intros bs r _. split.
        -- intros (b1 & b2 & v & -> & [-> Hv] & -> & ->). exists v. auto.
        -- intros (v & -> & Hv & ->). exists [v], [], v. auto.
    + intros s bs a (v & -> & _). discriminate.
  - intros bs [] Hb. cbn beta. split.
    + intros H. remember tt as t eqn:Et in H at 1. clear Et. induction H as [s bs [] (v & -> & Hv & E)|s b1 b2 s' [] (v & -> & Hv & E) HR IH].
      * destruct (Z.eqb_spec v c) as [->|]; [|discriminate E]. exists []. auto.
      * destruct (Z.eqb_spec v c) as [->|]; [discriminate E|]. inversion Hb; subst. destruct IH as (s0 & -> & Hn); auto. exists (v :: s0). split; auto. intros [X|X]; contradiction.
    + intros (s & -> & Hn). induction s as [|v s IH].
      * apply rounds_end. exists c. inversion Hb; subst. rewrite Z.eqb_refl. auto.
      * change ((v :: s) ++ [c]) with ([v] ++ (s ++ [c])). inversion Hb; subst. apply rounds_next with (s' := tt).
        -- exists v. split; auto. split; auto. destruct (Z.eqb_spec v c); auto. subst. destruct Hn. now left.
        -- apply IH; auto. intros X. apply Hn. now right.
Qed.

(** A scan for a pattern of three bytes: the first place where [hit] holds of a byte and the two before it. *)
Lemma first_hit_one hit a b v : first_hit hit a b [v] <-> hit a b v = true.
Proof.
  unfold first_hit. cbn [length]. split.
  - intros [_ H]. exact (H 0%nat ltac:(lia)).
  - intros H. split; [discriminate|]. intros i Hi. destruct i; [exact H|lia].
Qed.
Lemma first_hit_cons hit a b v z : z <> [] -> (first_hit hit a b (v :: z) <-> hit a b v = false /\ first_hit hit b v z).
Proof.
  intros Hz. unfold first_hit. assert (0 < length z)%nat by (destruct z; [contradiction|cbn; lia]). cbn [length]. split.
  - intros [_ H1]. split.
    + specialize (H1 0%nat ltac:(lia)). cbn [nth Nat.add] in H1. rewrite H1. apply Nat.eqb_neq. lia.
    + split; auto. intros i Hi. specialize (H1 (Datatypes.S i) ltac:(lia)).
      change (nth (S i) (a :: b :: v :: z) 0) with (nth i (b :: v :: z) 0) in H1. change (nth (S i + 1) (a :: b :: v :: z) 0) with (nth (i + 1) (b :: v :: z) 0) in H1.
      change (nth (S i + 2) (a :: b :: v :: z) 0) with (nth (i + 2) (b :: v :: z) 0) in H1. rewrite H1. apply eq_true_iff_eq. rewrite !Nat.eqb_eq. lia.
  - intros [H1 [_ H2]]. split; [discriminate|]. intros [|i] Hi.
    + cbn [nth Nat.add]. rewrite H1. symmetry. apply Nat.eqb_neq. lia.
    + change (nth (S i) (a :: b :: v :: z) 0) with (nth i (b :: v :: z) 0). change (nth (S i + 1) (a :: b :: v :: z) 0) with (nth (i + 1) (b :: v :: z) 0).
      change (nth (S i + 2) (a :: b :: v :: z) 0) with (nth (i + 2) (b :: v :: z) 0). rewrite (H2 i) by lia. apply eq_true_iff_eq. rewrite !Nat.eqb_eq. lia.
Qed.
Lemma exact_scan {A} (hit : Z -> Z -> Z -> bool) (res : Z -> Z -> A) a b : exact (@loop (Z * Z) A (fun '(b1, b2) => get* v := get_char in if hit b1 b2 v then pret (inr (res b1 b2)) else pret (Datatypes.inl (b2, v))) (a, b))
  (fun bs r => first_hit hit a b bs /\ exists n, n = length bs /\ r = res (nth (n - 1) (a :: b :: bs) 0) (nth n (a :: b :: bs) 0)).
Proof.
  eapply exact_iff.
  - eapply exact_loop with (L := fun (s : Z * Z) bs (r : (Z * Z) + A) => exists v, bs = [v] /\ byte v /\ r = if hit (fst s) (snd s) v then inr (res (fst s) (snd s)) else Datatypes.inl (snd s, v)).
    + intros [b1 b2]. eapply exact_iff; [eapply exact_bind; [apply exact_u8|]; intros ? v _ _|].
      * instantiate (1 := fun v bs (r : (Z * Z) + A) => bs = [] /\ r = if hit b1 b2 v then inr (res b1 b2) else Datatypes.inl (b2, v)). cbn beta. destruct (hit b1 b2 v); apply exact_ret.
      * intros bs r _. split.
        -- intros (? & ? & v & -> & [-> Hv] & -> & ->). exists v. auto.
        -- intros (v & -> & Hv & ->). exists [v], [], v. auto.
    + intros s bs r (v & -> & _). discriminate.
  - intros bs r Hb. cbn beta. split.
    + intros H. remember (a, b) as s eqn:Es in H. revert a b Es. induction H as [s bs r (v & -> & Hv & E)|s b1 b2 s' r (v & -> & Hv & E) HR IH]; intros a b ->; cbn [fst snd] in E.
      * destruct (hit a b v) eqn:Eh; [|discriminate E]. injection E as ->. split; [now apply first_hit_one|]. exists 1%nat. auto.
      * destruct (hit a b v) eqn:Eh; [discriminate E|]. injection E as ->. inversion Hb; subst. destruct (IH ltac:(auto) b v eq_refl) as (F & n & -> & ->). pose proof F as [Hn _].
        split; [apply first_hit_cons; auto|]. exists (Datatypes.S (length b2)). split; auto. assert (0 < length b2)%nat by (destruct b2; [contradiction|cbn; lia]).
        replace (Datatypes.S (length b2) - 1)%nat with (Datatypes.S (length b2 - 1)) by lia. reflexivity.
    + intros (F & n & -> & ->). revert a b F. induction bs as [|v bs IH]; intros a b F; [destruct F as [F _]; contradiction|]. inversion Hb; subst. destruct bs as [|w bs].
      * apply first_hit_one in F. apply rounds_end. exists v. split; auto. split; auto. cbn [fst snd]. rewrite F. reflexivity.
      * apply first_hit_cons in F as [F1 F2]; [|discriminate]. change (v :: w :: bs) with ([v] ++ (w :: bs)) at 1. apply rounds_next with (s' := (b, v)).
        -- exists v. split; auto. split; auto. cbn [fst snd]. now rewrite F1.
        -- specialize (IH ltac:(auto) b v F2). cbn [length] in IH |- *. replace (Datatypes.S (length bs) - 1)%nat with (length bs) in IH by lia.
           replace (Datatypes.S (Datatypes.S (length bs)) - 1)%nat with (Datatypes.S (length bs)) by lia. exact IH.
Qed.
Lemma exact_bind2 {A1 A2 B} (p : P (A1 * A2)) (k : A1 -> A2 -> P B) L1 L2 : exact p L1 -> (forall bs a1 a2, bytes bs -> L1 bs (a1, a2) -> exact (k a1 a2) (L2 a1 a2)) ->
  exact (pbind p (fun '(a1, a2) => k a1 a2)) (fun bs b => exists b1 b2 a1 a2, bs = b1 ++ b2 /\ L1 b1 (a1, a2) /\ L2 a1 a2 b2 b).
Proof.
  intros H1 H2. eapply exact_iff.
  - eapply exact_bind with (L2 := fun a => L2 (fst a) (snd a)); [exact H1|]. intros bs [a1 a2] Hb HL. eapply H2; eauto.
  - intros bs b _. split.
    + intros (b1 & b2 & [a1 a2] & H). exists b1, b2, a1, a2. exact H.
    + intros (b1 & b2 & a1 & a2 & H). exists b1, b2, (a1, a2). exact H.
Qed.
Lemma exact_bind3 {A1 A2 A3 B} (p : P (A1 * A2 * A3)) (k : A1 -> A2 -> A3 -> P B) L1 L2 : exact p L1 -> (forall bs a1 a2 a3, bytes bs -> L1 bs (a1, a2, a3) -> exact (k a1 a2 a3) (L2 a1 a2 a3)) ->
  exact (pbind p (fun '(a1, a2, a3) => k a1 a2 a3)) (fun bs b => exists b1 b2 a1 a2 a3, bs = b1 ++ b2 /\ L1 b1 (a1, a2, a3) /\ L2 a1 a2 a3 b2 b).
Proof.
  intros H1 H2. eapply exact_iff.
  - eapply exact_bind with (L2 := fun a => L2 (fst (fst a)) (snd (fst a)) (snd a)); [exact H1|]. intros bs [[a1 a2] a3] Hb HL. eapply H2; eauto.
  - intros bs b _. split.
    + intros (b1 & b2 & [[a1 a2] a3] & H). exists b1, b2, a1, a2, a3. exact H.
    + intros (b1 & b2 & a1 & a2 & a3 & H). exists b1, b2, (a1, a2, a3). exact H.
Qed.
Lemma strict_bind {A B} (L1 : list Z -> A -> Prop) (L2 : A -> list Z -> B -> Prop) : strict L1 -> strict (fun bs b => exists b1 b2 a, bs = b1 ++ b2 /\ L1 b1 a /\ L2 a b2 b).
Proof. intros H bs b (b1 & b2 & a & -> & H1 & _) E. apply app_eq_nil in E as [-> _]. exact (H _ _ H1 eq_refl). Qed.
Lemma pfold_ext {S A} (f g : S -> A -> P S) raw : (forall s a o, f s a raw o = g s a raw o) -> forall l s o, pfold f l s raw o = pfold g l s raw o.
Proof. intros H. induction l as [|a l IH]; intros s o; auto. cbn [pfold]. unfold pbind. rewrite H. destruct (g s a raw o) as [[s'|e| |] o']; auto. Qed.
