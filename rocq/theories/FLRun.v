(** * FLRun: the state machine of [super_fl_local], on abstract events (lemmas for C73). *)
From Verif Require Import Base BaseFacts Features.
Open Scope Z_scope.

(** what an event is for the machine *)
Inductive kind := KMove | KFlag | KGood | KStop | KOther.
Definition p1 (i : nat) (k : kind) (s : fl) : fl :=
  match k with KFlag => fl_flag i s | KGood => fl_good s | KStop => fl_stop s | _ => s end.
Definition p2 (i : nat) (k : kind) (j : bool) (s : fl) : fl := fl_enough (if j then fl_far (p1 i k s) else p1 i k s).
(** one event: the new state, and the comment (event, number of steps) *)
Definition pstep (i : nat) (k : kind) (j : bool) (s : fl) : fl * option (nat * Z) :=
  match k with
  | KMove => (s, None)
  | _ => let s := p2 i k j s in
         match fl_st s with
         | Finish => (FL NotStart (fl_anchor s) (fl_counter s) (fl_last_rc s), Some (fl_anchor s, fl_counter s))
         | _ => (s, None)
         end
  end.

Section Run.
Variables (K : nat -> kind) (J : nat -> bool).
Definition is_step (i : nat) : bool := match K i with KFlag | KGood => true | _ => false end.
(** steps among the events [a], ..., [b - 1] *)
Definition steps (a b : nat) : Z := Z.of_nat (length (filter is_step (seq a (b - a)))).
Lemma steps_S a b : (a <= b)%nat -> steps a (S b) = steps a b + if is_step b then 1 else 0.
Proof.
  intros H. unfold steps. replace (S b - a)%nat with (S (b - a)) by lia. rewrite seq_S, filter_app, app_length. replace (a + (b - a))%nat with b by lia. cbn [filter]. destruct (is_step b); cbn [length]; lia.
Qed.
Lemma steps_one a : is_step a = true -> steps a (S a) = 1.
Proof. intros H. rewrite steps_S by lia. rewrite H. unfold steps. rewrite Nat.sub_diag. reflexivity. Qed.
Lemma steps_mono a b c : (a <= b <= c)%nat -> 0 <= steps a b <= steps a c.
Proof.
  intros H. split; [unfold steps; lia|]. replace c with (b + (c - b))%nat by lia. induction (c - b)%nat as [|n IH]; [rewrite Nat.add_0_r; lia|].
  replace (b + S n)%nat with (S (b + n)) by lia. rewrite steps_S by lia. destruct (is_step (b + n)); lia.
Qed.

(** [n] steps up to the last good chord among the events after [a] and before [i] *)
Definition counted (a i : nat) (n : Z) : Prop :=
  (exists c, (a < c < i)%nat /\ K c = KGood /\ (forall k, (c < k < i)%nat -> K k <> KGood) /\ n = steps a (S c)) \/
  ((forall k, (a < k < i)%nat -> K k <> KGood) /\ n = 0).
(** no stop, and no jump once a second step has been made, among the events after [a] and before [i] *)
Definition unbroken (a i : nat) : Prop :=
  forall k, (a < k < i)%nat -> K k <> KStop /\ (K k <> KMove -> J k = true -> steps a (S k) = 1).
(** the machine follows the run that began at [a] *)
Definition follows (a i : nat) (s : fl) : Prop :=
  (a < i)%nat /\ K a = KFlag /\ unbroken a i /\ fl_anchor s = a /\ fl_counter s = steps a i /\ counted a i (fl_counter s - fl_last_rc s) /\
  fl_st s = if steps a i =? 1 then StartNow else if 5 <=? fl_counter s - fl_last_rc s then IsOk else StartNotOk.
(** the states the machine can have *)
Definition machine (i : nat) (s : fl) : Prop := fl_st s = NotStart \/ exists a, follows a i s.
(** the run from [a] ends at [z] *)
Definition ends (a z : nat) : Prop :=
  (a < z)%nat /\ K a = KFlag /\ unbroken a z /\ K z <> KMove /\ (K z = KStop \/ J z = true /\ steps a (S z) <> 1).
(** ... with at least five steps before [z], [n] altogether *)
Definition good_end (a z : nat) (n : Z) : Prop := ends a z /\ counted a (S z) n /\ exists m, counted a z m /\ 5 <= m.

Lemma follows_start i s : fl_st s = NotStart -> K i = KFlag -> fst (pstep i (K i) (J i) s) = FL StartNow i 1 1 /\ snd (pstep i (K i) (J i) s) = None.
Proof. intros H HK. rewrite HK. unfold pstep, p2, p1, fl_flag. rewrite H. destruct (J i); cbn; auto. Qed.
Lemma follows_first i : K i = KFlag -> follows i (S i) (FL StartNow i 1 1).
Proof.
  intros HK. assert (E : steps i (S i) = 1) by (apply steps_one; unfold is_step; now rewrite HK). split; [lia|]. split; auto. split; [intros k Hk; lia|]. cbn.
  split; auto. split; auto. split; [right; split; [intros k Hk; lia|auto]|]. now rewrite E.
Qed.
Lemma counted_next a i n : (a < i)%nat -> counted a i n -> counted a (S i) (if match K i with KGood => true | _ => false end then steps a (S i) else n).
Proof.
  intros Ha Hc. destruct (K i) eqn:EK; try (destruct Hc as [(c & H1 & H2 & H3 & H4)|[H1 H2]];
    [left; exists c; split; [lia|]; split; auto; split; auto; intros k Hk; destruct (Nat.eq_dec k i) as [->|]; [congruence|apply H3; lia]
    |right; split; auto; intros k Hk; destruct (Nat.eq_dec k i) as [->|]; [congruence|apply H1; lia]]).
  left. exists i. split; [lia|]. split; auto. split; auto. intros k Hk. lia.
Qed.
Lemma counted_le a i n : (a < i)%nat -> K a = KFlag -> counted a i n -> 0 <= n <= steps a i /\ (n = 0 \/ 2 <= n).
Proof.
  intros Ha HK Hc. destruct Hc as [(c & H1 & H2 & _ & ->)|[_ ->]].
  - pose proof (@steps_mono a (S c) i ltac:(lia)) as M. split; [lia|]. right.
    pose proof (@steps_mono a (S a) c ltac:(lia)) as M1. rewrite steps_one in M1 by (unfold is_step; now rewrite HK). rewrite steps_S by lia. replace (is_step c) with true by (unfold is_step; now rewrite H2). lia.
  - pose proof (@steps_mono a a i ltac:(lia)). lia.
Qed.
Lemma steps_pos a i : (a < i)%nat -> K a = KFlag -> 1 <= steps a i.
Proof. intros H HK. pose proof (@steps_mono a (S a) i ltac:(lia)) as M. rewrite steps_one in M by (unfold is_step; now rewrite HK). lia. Qed.


Lemma counted_fun a i n n' : counted a i n -> counted a i n' -> n = n'.
Proof.
  intros [(c & A1 & A2 & A3 & A4)|[A1 A2]] [(c' & B1 & B2 & B3 & B4)|[B1 B2]]; try congruence.
  - destruct (Nat.lt_trichotomy c c') as [H|[H|H]]; [exfalso; apply (A3 c'); [lia|auto]|congruence|exfalso; apply (B3 c); [lia|auto]].
  - exfalso. apply (B1 c); auto.
  - exfalso. apply (A1 c'); auto.
Qed.
Lemma enough_finish a n m : fl_enough (FL Finish a n m) = FL Finish a n m.
Proof. unfold fl_enough. cbn [fl_st]. now destruct (5 <=? _). Qed.
Lemma enough_not a n m : fl_enough (FL NotStart a n m) = FL NotStart a n m.
Proof. unfold fl_enough. cbn [fl_st]. now destruct (5 <=? _). Qed.
Ltac pick := solve [lia | auto; fail | left; split; [lia|reflexivity] | right; left; split; [lia|split; [lia|reflexivity]] | right; right; split; [lia|split; [lia|reflexivity]]].
(** one event of a run *)
Lemma follows_next a i s : follows a i s ->
  let r := pstep i (K i) (J i) s in
  (snd r = None /\ ~ ends a i /\ follows a (S i) (fst r)) \/
  (snd r = None /\ ends a i /\ (forall n, ~ good_end a i n) /\ fl_st (fst r) = NotStart) \/
  (exists n, snd r = Some (a, n) /\ good_end a i n /\ fl_st (fst r) = NotStart).
Proof.
  intros (Ha & HK & Hu & Han & Hc & Hct & Hst). cbv zeta.
  pose proof (counted_next Ha Hct) as Hct'. assert (HS : steps a (S i) = steps a i + if is_step i then 1 else 0) by (apply steps_S; lia). unfold is_step in HS.
  pose proof (steps_pos Ha HK) as Hp. destruct (counted_le Ha HK Hct) as [Hle Hz].
  assert (Hun : K i <> KStop -> (K i <> KMove -> J i = true -> steps a (S i) = 1) -> unbroken a (S i)).
  { intros H1 H2 k Hk. destruct (Nat.eq_dec k i) as [->|]; [auto|apply Hu; lia]. }
  destruct s as [st an ct rc]. cbn [fl_st fl_anchor fl_counter fl_last_rc] in *. subst an ct.
  assert (Hne : (K i = KMove \/ K i <> KStop /\ (J i = true -> steps a (S i) = 1)) -> ~ ends a i).
  { intros [X|[X Y]] (_ & _ & _ & Z1 & [Z2|[Z2 Z3]]); try congruence. now apply Z3, Y. }
  assert (He : K i <> KMove -> K i = KStop \/ J i = true /\ steps a (S i) <> 1 -> ends a i).
  { intros X Y. split; [lia|]. split; [auto|]. split; [auto|]. split; auto. }
  assert (Hbad : steps a i - rc < 5 -> forall n, ~ good_end a i n).
  { intros X n (_ & _ & m & Hm & H5). pose proof (counted_fun Hm Hct). lia. }
  assert (Hcase : (steps a i = 1 /\ st = StartNow /\ rc = 1) \/ (2 <= steps a i /\ st = IsOk /\ 5 <= steps a i - rc) \/ (2 <= steps a i /\ st = StartNotOk /\ steps a i - rc < 5)).
  { revert Hst. destruct (Z.eqb_spec (steps a i) 1); [left; split; [auto|]; split; [auto|]; lia|]. destruct (Z.leb_spec 5 (steps a i - rc)); intros ->; [right; left|right; right]; (split; [lia|split; [auto|lia]]). }
  clear Hst.
  assert (Hfol : forall n rc' st', K i <> KStop -> (K i <> KMove -> J i = true -> steps a (S i) = 1) -> n = steps a (S i) -> counted a (S i) (n - rc') ->
     (steps a (S i) = 1 /\ st' = StartNow \/ steps a (S i) <> 1 /\ 5 <= n - rc' /\ st' = IsOk \/ steps a (S i) <> 1 /\ n - rc' < 5 /\ st' = StartNotOk) -> ~ ends a i /\ follows a (S i) (FL st' a n rc')).
  { intros n rc' st' X Y -> Z W. split. { apply Hne. destruct (K i) eqn:EK; auto; right; split; auto; intros; apply Y; auto; discriminate. }
    split; [lia|]. split; auto. split; [apply Hun; auto|]. cbn. split; auto. split; auto. split; auto.
    destruct W as [[W ->]|[(W & W' & ->)|(W & W' & ->)]]; destruct (Z.eqb_spec (steps a (S i)) 1); try lia; auto; destruct (Z.leb_spec 5 (steps a (S i) - rc')); auto; lia. }
  assert (Hgood : forall n, st = IsOk -> K i <> KMove -> K i = KStop \/ J i = true /\ steps a (S i) <> 1 -> counted a (S i) n -> good_end a i n).
  { intros n E X Y Z. split; [auto|]. split; auto. exists (steps a i - rc). split; auto. destruct Hcase as [(A & B & C)|[(A & B & C)|(A & B & C)]]; try congruence; lia. }
  destruct (K i) eqn:EK.
  - (* move *) cbn [pstep fst snd]. left. split; auto. destruct Hcase as [(E & -> & ->)|[(E & -> & E2)|(E & -> & E2)]]; (apply Hfol; try congruence; pick).
  - (* flag *)
    assert (Hc1 : counted a (S i) (steps a i + 1 - (rc + 1))) by (replace (steps a i + 1 - (rc + 1)) with (steps a i - rc) by lia; exact Hct').
    destruct Hcase as [(E & -> & ->)|[(E & -> & E2)|(E & -> & E2)]]; destruct (J i) eqn:EJ;
      unfold pstep, p2, p1, fl_flag; cbn [fl_st fl_anchor fl_counter fl_last_rc]; unfold fl_far; cbn [fl_st fl_anchor fl_counter fl_last_rc]; rewrite ?enough_finish, ?enough_not; try unfold fl_enough; cbn [fl_st fl_anchor fl_counter fl_last_rc].
    + cbn [fst snd fl_st]. right. left. split; auto. split; [apply He; [congruence|right; split; auto; lia]|]. split; [apply Hbad; lia|reflexivity].
    + destruct (Z.leb_spec 5 (steps a i + 1 - (1 + 1))); [lia|]. cbn [fst snd fl_st]. left. split; auto. apply Hfol; try congruence; pick.
    + cbn [fst snd fl_st fl_anchor fl_counter]. right. right. eexists. split; [reflexivity|]. split; [|reflexivity]. apply Hgood; try congruence. right. split; auto. lia.
    + destruct (Z.leb_spec 5 (steps a i + 1 - (rc + 1))); [|lia]. cbn [fst snd fl_st]. left. split; auto. apply Hfol; try congruence; pick.
    + cbn [fst snd fl_st]. right. left. split; auto. split; [apply He; [congruence|right; split; auto; lia]|]. split; [apply Hbad; lia|reflexivity].
    + destruct (Z.leb_spec 5 (steps a i + 1 - (rc + 1))); [lia|]. cbn [fst snd fl_st]. left. split; auto. apply Hfol; try congruence; pick.
  - (* good chord *)
    assert (Hc1 : counted a (S i) (steps a i + 1 - 0)) by (replace (steps a i + 1 - 0) with (steps a (S i)) by lia; exact Hct').
    destruct Hcase as [(E & -> & ->)|[(E & -> & E2)|(E & -> & E2)]]; destruct (J i) eqn:EJ;
      unfold pstep, p2, p1, fl_good; cbn [fl_st fl_anchor fl_counter fl_last_rc]; unfold fl_far; cbn [fl_st fl_anchor fl_counter fl_last_rc]; rewrite ?enough_finish, ?enough_not; try unfold fl_enough; cbn [fl_st fl_anchor fl_counter fl_last_rc].
    + cbn [fst snd fl_st]. right. left. split; auto. split; [apply He; [congruence|right; split; auto; lia]|]. split; [apply Hbad; lia|reflexivity].
    + destruct (Z.leb_spec 5 (steps a i + 1 - 0)); [lia|]. cbn [fst snd fl_st]. left. split; auto. apply Hfol; try congruence; pick.
    + cbn [fst snd fl_st fl_anchor fl_counter]. right. right. eexists. split; [reflexivity|]. split; [|reflexivity]. apply Hgood; try congruence. right. split; auto. lia.
    + destruct (Z.leb_spec 5 (steps a i + 1 - 0)); [|lia]. cbn [fst snd fl_st]. left. split; auto. apply Hfol; try congruence; pick.
    + cbn [fst snd fl_st]. right. left. split; auto. split; [apply He; [congruence|right; split; auto; lia]|]. split; [apply Hbad; lia|reflexivity].
    + destruct (Z.leb_spec 5 (steps a i + 1 - 0)); cbn [fst snd fl_st]; left; split; auto; apply Hfol; try congruence; pick.
  - (* stop *)
    assert (Hc1 : counted a (S i) (steps a i - rc)) by exact Hct'.
    destruct Hcase as [(E & -> & ->)|[(E & -> & E2)|(E & -> & E2)]]; destruct (J i) eqn:EJ;
      unfold pstep, p2, p1, fl_stop; cbn [fl_st fl_anchor fl_counter fl_last_rc]; unfold fl_far; cbn [fl_st fl_anchor fl_counter fl_last_rc]; rewrite ?enough_finish, ?enough_not; try unfold fl_enough; cbn [fl_st fl_anchor fl_counter fl_last_rc];
      cbn [fst snd fl_st fl_anchor fl_counter].
    all: first [ right; left; split; [reflexivity|]; split; [apply He; [congruence|left; auto]|]; split; [apply Hbad; lia|reflexivity]
               | right; right; eexists; split; [reflexivity|]; split; [|reflexivity]; apply Hgood; auto; try congruence ].
  - (* other *)
    assert (Hc1 : counted a (S i) (steps a i - rc)) by exact Hct'.
    destruct Hcase as [(E & -> & ->)|[(E & -> & E2)|(E & -> & E2)]]; destruct (J i) eqn:EJ;
      unfold pstep, p2, p1; cbn [fl_st fl_anchor fl_counter fl_last_rc]; unfold fl_far; cbn [fl_st fl_anchor fl_counter fl_last_rc]; rewrite ?enough_finish, ?enough_not; try unfold fl_enough; cbn [fl_st fl_anchor fl_counter fl_last_rc].
    all: try match goal with |- context [5 <=? ?x] => destruct (Z.leb_spec 5 x); try (exfalso; lia) end; cbn [fst snd fl_st fl_anchor fl_counter].
    all: first [ left; split; [reflexivity|]; apply Hfol; try congruence; pick
               | right; left; split; [reflexivity|]; split; [apply He; [congruence|right; split; auto; lia]|]; split; [apply Hbad; lia|reflexivity]
               | right; right; eexists; split; [reflexivity|]; split; [|reflexivity]; apply Hgood; try congruence; right; split; [auto|lia] ].
Qed.

(** ** The runs of a file *)
Lemma ends_twice a z z' : ends a z -> ends a z' -> z = z'.
Proof.
  assert (H : forall z z', ends a z -> ends a z' -> ~ (z < z')%nat).
  { intros x y (A1 & A2 & A3 & A4 & A5) (B1 & B2 & B3 & B4 & B5) H. destruct (B3 x ltac:(lia)) as [C1 C2]. destruct A5 as [A5|[A5 A6]]; [auto|]. apply A6. now apply C2. }
  intros E1 E2. pose proof (H _ _ E1 E2). pose proof (H _ _ E2 E1). lia.
Qed.
Lemma ends_unbroken a z i : ends a z -> (z < i)%nat -> ~ unbroken a i.
Proof.
  intros (A1 & A2 & A3 & A4 & A5) H B3. destruct (B3 z ltac:(lia)) as [C1 C2]. destruct A5 as [A5|[A5 A6]]; [auto|]. apply A6. now apply C2.
Qed.
(** no run is under way when event [i] comes *)
Inductive idle : nat -> Prop :=
| idle_start : idle 1
| idle_next i : idle i -> K i <> KFlag -> idle (S i)
| idle_end a z : idle a -> ends a z -> idle (S z).
Lemma idle_pos i : idle i -> (1 <= i)%nat.
Proof. induction 1; lia. Qed.
Lemma idle_ended : forall n a i, (i <= n)%nat -> idle a -> K a = KFlag -> idle i -> (a < i)%nat -> exists z, (z < i)%nat /\ ends a z.
Proof.
  induction n as [|n IH]; intros a i Hn Ha HK Hi Hlt; [lia|]. pose proof (idle_pos Ha). inversion Hi as [E|j Hj HKj E|b z Hb He E]; [lia| |]; subst i.
  - destruct (Nat.eq_dec a j) as [->|]; [congruence|]. destruct (IH a j ltac:(lia) Ha HK Hj ltac:(lia)) as (z & Hz & Hz'). exists z. split; [lia|auto].
  - pose proof He as (Hbz & HKb & _). destruct (Nat.lt_trichotomy a b) as [H1|[->|H1]].
    + destruct (IH a b ltac:(lia) Ha HK Hb H1) as (y & Hy & Hy'). exists y. split; [lia|auto].
    + exists z. split; [lia|auto].
    + destruct (IH b a ltac:(lia) Hb HKb Ha H1) as (y & Hy & Hy'). pose proof (ends_twice He Hy'). lia.
Qed.

Fixpoint prun (n : nat) : fl * list (nat * Z) :=
  match n with
  | O => (FL NotStart 0 0 0, [])
  | S O => (FL NotStart 0 0 0, [])
  | S i => let '(s, o) := prun i in let '(s', c) := pstep i (K i) (J i) s in (s', o ++ match c with Some x => [x] | None => [] end)
  end.
Lemma prun_S i : (1 <= i)%nat -> prun (S i) = (let '(s, o) := prun i in let '(s', c) := pstep i (K i) (J i) s in (s', o ++ match c with Some x => [x] | None => [] end)).
Proof. destruct i; [lia|]. reflexivity. Qed.
Lemma idle_step i s : fl_st s = NotStart -> K i <> KFlag -> fl_st (fst (pstep i (K i) (J i) s)) = NotStart /\ snd (pstep i (K i) (J i) s) = None.
Proof.
  intros H HK. destruct s as [st an ct rc]. cbn [fl_st] in H. subst st. unfold pstep, p2, p1, fl_good, fl_stop. cbn [fl_st fl_anchor].
  destruct (K i); try congruence; destruct (J i); unfold fl_far; cbn [fl_st]; rewrite ?enough_not; auto.
Qed.
Theorem prun_spec i : (1 <= i)%nat -> let '(s, o) := prun i in
  (fl_st s = NotStart /\ idle i \/ exists a, follows a i s /\ idle a) /\
  (forall a n, In (a, n) o <-> exists z, (z < i)%nat /\ idle a /\ good_end a z n) /\ NoDup (map fst o).
Proof.
  induction i as [|i IH]; intros Hi; [lia|]. destruct i as [|i].
  { cbn. split; [left; split; [reflexivity|constructor]|]. split; [|constructor]. intros a n. split; [intros []|]. intros (z & Hz & Ha & (Hlt & _) & _). pose proof (idle_pos Ha). lia. }
  specialize (IH ltac:(lia)). rewrite prun_S by lia. destruct (prun (S i)) as [s o]. set (m := S i) in *. clearbody m. destruct IH as (Hst & Ho & Hnd).
  assert (Hkeep : forall a n, (exists z, (z < S m)%nat /\ idle a /\ good_end a z n) <-> In (a, n) o \/ idle a /\ good_end a m n).
  { intros a n. rewrite Ho. split.
    - intros (z & Hz & Ha & Hg). destruct (Nat.eq_dec z m) as [->|]; [auto|]. left. exists z. split; [lia|auto].
    - intros [(z & Hz & H)|H]; [exists z; split; [lia|auto]|exists m; split; [lia|auto]]. }
  destruct Hst as [[Hns Hid]|(b & Hf & Hb)].
  - assert (Hno : forall a n, idle a -> ~ good_end a m n).
    { intros a n Ha [He _]. pose proof He as (H1 & H2 & H3 & _). destruct (idle_ended (le_n m) Ha H2 Hid H1) as (z & Hz & Hz'). exact (ends_unbroken Hz' Hz H3). }
    assert (Hsame : forall a n, In (a, n) (o ++ []) <-> exists z, (z < S m)%nat /\ idle a /\ good_end a z n).
    { intros a n. rewrite Hkeep, app_nil_r. split; [auto|]. intros [H|[H1 H2]]; [auto|]. destruct (Hno a n H1 H2). }
    destruct (K m) eqn:EK; [| |idtac..].
    2:{ destruct (follows_start Hns EK) as [E1 E2]. rewrite EK in E1, E2. destruct (pstep m KFlag (J m) s) as [s' c]. cbn [fst snd] in E1, E2. subst s' c.
        split; [right; exists m; split; [now apply follows_first|auto]|]. split; [exact Hsame|now rewrite app_nil_r]. }
    all: assert (HK : K m <> KFlag) by congruence; destruct (idle_step Hns HK) as [E1 E2]; rewrite EK in E1, E2;
      match goal with |- context [pstep ?mm ?k ?jj ?ss] => destruct (pstep mm k jj ss) as [s' c] end; cbn [fst snd] in E1, E2; subst c;
      (split; [left; split; [auto|now apply idle_next]|]; split; [exact Hsame|now rewrite app_nil_r]).
  - assert (Honly : forall a n, idle a -> good_end a m n -> a = b).
    { intros a n Ha [He _]. pose proof He as (H1 & H2 & H3 & _). destruct Hf as (B1 & B2 & B3 & _). destruct (Nat.lt_trichotomy a b) as [H|[H|H]]; auto; exfalso.
      - destruct (idle_ended (le_n b) Ha H2 Hb H) as (z & Hz & Hz'). refine (ends_unbroken Hz' _ H3). lia.
      - destruct (idle_ended (le_n a) Hb B2 Ha H) as (z & Hz & Hz'). refine (ends_unbroken Hz' _ B3). lia. }
    pose proof (follows_next Hf) as Hn. destruct (pstep m (K m) (J m) s) as [s' c]. cbn [fst snd] in Hn. destruct Hn as [(-> & Hne & Hf')|[(-> & He & Hng & Hns)|(n & -> & Hg & Hns)]].
    + split; [right; exists b; auto|]. split; [|now rewrite app_nil_r]. intros a n. rewrite Hkeep, app_nil_r. split; [auto|]. intros [H|[H1 H2]]; [auto|].
      pose proof (Honly a n H1 H2). subst a. destruct Hne. apply H2.
    + split; [left; split; [auto|eapply idle_end; eauto]|]. split; [|now rewrite app_nil_r]. intros a n. rewrite Hkeep, app_nil_r. split; [auto|]. intros [H|[H1 H2]]; [auto|].
      pose proof (Honly a n H1 H2). subst a. destruct (Hng n H2).
    + split; [left; split; [auto|eapply idle_end; eauto; apply Hg]|]. split.
      * intros a k. rewrite Hkeep, in_app_iff. split; intros [H|H]; auto.
        -- destruct H as [H|[]]. injection H as <- <-. auto.
        -- right. left. destruct H as [H1 H2]. pose proof (Honly a k H1 H2). subst a. f_equal. eapply counted_fun; [apply Hg|apply H2].
      * rewrite map_app. cbn [map fst]. apply NoDup_app_disj; [exact Hnd|repeat constructor; auto|]. intros x Hin [<-|[]]. apply in_map_iff in Hin as ([a k] & E & Hin). cbn [fst] in E. subst a.
        apply Ho in Hin as (z & Hz & _ & [He _]). destruct Hf as (_ & _ & B3 & _). exact (ends_unbroken He Hz B3).
Qed.
End Run.
