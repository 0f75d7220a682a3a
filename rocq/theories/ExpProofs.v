(** * ExpProofs: the loops of [cal_bbbv_exp] (utils.rs 1423-1511) against ExpSpec. *)
From Verif Require Import Base Spec BaseFacts LayMine LayMineProofs Utils ExpSpec.
Open Scope Z_scope.

Lemma beforeb_iff q p : beforeb q p = true <-> before q p.
Proof. unfold beforeb, before. lia. Qed.
Lemma scan_startb_iff row column b p : inb row column p ->
  scan_start row column b p <-> scan_startb row column b p = true.
Proof.
  intros Hp. unfold scan_start, scan_startb, zero_cell. rewrite andb_true_iff, Z.eqb_eq, forallb_forall. split.
  - intros [[_ H0] H]. split; auto. intros q Hq. apply in_positions in Hq. apply negb_true_iff.
    destruct (nearb_spec p q) as [Hn|]; cbn [andb]; auto.
    destruct (beforeb q p) eqn:B; cbn [andb]; auto. apply Z.eqb_neq. apply H; auto. now apply beforeb_iff.
  - intros [H0 H]. split; [split; auto|]. intros q Hq Hn Hb.
    apply in_positions in Hq. specialize (H q Hq). apply negb_true_iff in H.
    apply beforeb_iff in Hb. rewrite Hb in H. destruct (nearb_spec p q); [|tauto].
    cbn [andb] in H. now apply Z.eqb_neq.
Qed.

Definition unkey (i : nat) : pos := (i / 30, i mod 30)%nat.
Definition key (p : pos) : nat := (fst p * 30 + snd p)%nat.
Lemma unkey_key p : (snd p < 30)%nat -> unkey (key p) = p.
Proof.
  destruct p as [x y]. unfold unkey, key; cbn [fst snd]. intros H. f_equal.
  - rewrite Nat.add_comm, Nat.div_add, Nat.div_small by lia. reflexivity.
  - rewrite Nat.add_comm, Nat.mod_add, Nat.mod_small by lia. reflexivity.
Qed.
Lemma key_unkey i : key (unkey i) = i.
Proof. unfold key, unkey; cbn [fst snd]. rewrite Nat.mul_comm. symmetry. apply Nat.div_mod. lia. Qed.
Lemma unkey_inb i : (i < 480)%nat -> inb 16 30 (unkey i).
Proof. intros H. split; cbn [unkey fst snd]; [apply Nat.div_lt_upper_bound; lia|apply Nat.mod_upper_bound; lia]. Qed.
Lemma key_lt p : inb 16 30 p -> (key p < 480)%nat.
Proof. intros [H1 H2]. unfold key. lia. Qed.
Lemma key_before q p : inb 16 30 q -> inb 16 30 p -> before q p <-> (key q < key p)%nat.
Proof. intros [H1 H2] [H3 H4]. unfold before, key. lia. Qed.
Lemma grid_unkey : grid 16 30 = map unkey (seq 0 480).
Proof. vm_compute. reflexivity. Qed.
Lemma positions_unkey : positions 16 30 = map unkey (seq 0 480).
Proof. exact grid_unkey. Qed.

Lemma foldM_map {A B S} (f : S -> B -> R S) (g : A -> B) l s : foldM f (map g l) s = foldM (fun s x => f s (g x)) l s.
Proof. revert s. induction l as [|x l IH]; intros s; [reflexivity|]. cbn [map foldM]. destruct (f s (g x)); cbn [bind]; auto. Qed.

(** the neighbours looked at by the first and by the second pass *)
Definition prior (p : pos) : list pos :=
  (if (1 <=? fst p)%nat then map (pair (fst p - 1)%nat) (rng (Nat.max 1 (snd p) - 1) (Nat.min 30 (snd p + 2))) else []) ++
  (if (1 <=? snd p)%nat then [(fst p, snd p - 1)%nat] else []).
Definition next (p : pos) : list pos :=
  (if (fst p <=? 14)%nat then map (pair (fst p + 1)%nat) (rng (Nat.max 1 (snd p) - 1) (Nat.min 30 (snd p + 2))) else []) ++
  (if (snd p <=? 28)%nat then [(fst p, snd p + 1)%nat] else []).
Lemma in_prior p q : inb 16 30 p -> In q (prior p) <-> inb 16 30 q /\ near p q /\ before q p.
Proof.
  destruct p as [x y], q as [u v]. intros [H1 H2]. unfold prior, inb, near, before. cbn [fst snd] in *.
  rewrite in_app_iff. split.
  - intros [H|H].
    + destruct (Nat.leb_spec 1 x); [|destruct H]. apply in_map_iff in H as (j & E & Hj). apply in_rng in Hj. inversion E; subst. lia.
    + destruct (Nat.leb_spec 1 y); [|destruct H]. destruct H as [E|[]]. inversion E; subst. lia.
  - intros H. destruct (Nat.eq_dec u x) as [->|].
    + right. replace (1 <=? y)%nat with true by lia. left. f_equal. lia.
    + left. replace (1 <=? x)%nat with true by lia. apply in_map_iff. exists v. split; [f_equal; lia|]. apply in_rng. lia.
Qed.
Lemma in_next p q : inb 16 30 p -> In q (next p) <-> inb 16 30 q /\ near p q /\ before p q.
Proof.
  destruct p as [x y], q as [u v]. intros [H1 H2]. unfold next, inb, near, before. cbn [fst snd] in *.
  rewrite in_app_iff. split.
  - intros [H|H].
    + destruct (Nat.leb_spec x 14); [|destruct H]. apply in_map_iff in H as (j & E & Hj). apply in_rng in Hj. inversion E; subst. lia.
    + destruct (Nat.leb_spec y 28); [|destruct H]. destruct H as [E|[]]. inversion E; subst. lia.
  - intros H. destruct (Nat.eq_dec u x) as [->|].
    + right. replace (y <=? 28)%nat with true by lia. left. f_equal. lia.
    + left. replace (x <=? 14)%nat with true by lia. apply in_map_iff. exists v. split; [f_equal; lia|]. apply in_rng. lia.
Qed.

Section S.
Variable b0 : board.
Hypothesis Hr0 : rect 16 30 b0.
Hypothesis Hsmall : forall p, inb 16 30 p -> cell b0 p <= 999999.
Notation Z0 := (zero_cell 16 30 b0).
Notation big b := (fun p => 999999 <? cell b p).
Notation bigs b := (count (big b) (positions 16 30)).

(** the board while the scan has passed the cells of [D] *)
Definition vals (D : pos -> Prop) (b : board) : Prop :=
  rect 16 30 b /\
  (forall p, inb 16 30 p -> cell b0 p <= 0 -> cell b p = cell b0 p) /\
  (forall p, inb 16 30 p -> 0 < cell b0 p -> ~ D p -> cell b p = cell b0 p) /\
  (forall p, inb 16 30 p -> 0 < cell b0 p -> D p -> cell b p = 1000000 \/ (cell b p = 1 /\ exists z, Z0 z /\ near p z)).
Definition kept (b b' : board) : Prop := forall p, inb 16 30 p -> cell b p <= 999999 -> cell b' p <= 999999.

Lemma touch D b z q : vals D b -> Z0 z -> inb 16 30 q -> near q z -> 999999 < cell b q ->
  vals D (upd b q 1) /\ S (bigs (upd b q 1)) = bigs b /\ kept b (upd b q 1) /\ cell (upd b q 1) q = 1 /\ 0 < cell b0 q.
Proof.
  intros (Hr & V0 & V1 & V2) Hz Hq Hn Hb. pose proof (Hsmall Hq) as Hs.
  assert (Hp : 0 < cell b0 q) by (destruct (Z.lt_ge_cases 0 (cell b0 q)); auto; rewrite V0 in Hb by auto; lia).
  split; [|split; [|split; [|split]]]; auto.
  - split; [now apply rect_upd|]. split; [|split]; intros p Hip.
    + intros H0. rewrite (cell_upd _ _ Hr Hq). destruct (posb_spec q p) as [<-|]; [lia|auto].
    + intros H0 HD. rewrite (cell_upd _ _ Hr Hq). destruct (posb_spec q p) as [<-|]; [|auto].
      rewrite V1 in Hb by auto. lia.
    + intros H0 HD. rewrite (cell_upd _ _ Hr Hq). destruct (posb_spec q p) as [<-|]; [|auto].
      right. split; auto. exists z. auto.
  - pose proof (@count_point _ pos_eq_dec (big b) (big (upd b q 1)) (positions 16 30) q (NoDup_positions 16 30)) as C.
    cbv beta in C. rewrite (cell_upd_eq _ Hr Hq) in C. replace (999999 <? 1) with false in C by lia.
    replace (999999 <? cell b q) with true in C by lia.
    assert (C1 := C (proj2 (in_positions 16 30 q) Hq)). lapply C1; [intros C2; cbv iota in C2; lia|].
    intros x Hx. rewrite cell_upd_neq by auto. reflexivity.
  - intros p Hip Hle. rewrite (cell_upd _ _ Hr Hq). destruct (posb q p); lia.
  - apply (cell_upd_eq _ Hr Hq).
Qed.

Definition scan_min (m : Z) (fl : bool) : Prop := (m = 1000 /\ fl = false) \/ (m = 0 /\ fl = true).

Lemma prev_step D b ops m fl z q : vals D b -> Z0 z -> inb 16 30 q -> near q z -> scan_min m fl ->
  exists b' m', exp_prev b0 (fst q) (snd q) (b, ops, bigs b, m, fl) = Ok (b', ops, bigs b', m', fl || (cell b0 q =? 0)) /\
    vals D b' /\ kept b b' /\ cell b' q <= 999999 /\ scan_min m' (fl || (cell b0 q =? 0)).
Proof.
  intros HV Hz Hq Hn Hm. pose proof HV as (Hr & V0 & V1 & V2). destruct q as [x y]. cbn [fst snd].
  unfold exp_prev. rewrite (get_ok Hr Hq). cbn [bind].
  destruct (Z.ltb_spec 999999 (cell b (x, y))) as [Hb|Hb].
  - destruct (touch HV Hz Hq Hn Hb) as (HV' & C & K & E & Hp).
    exists (upd b (x, y) 1), m. rewrite (set_ok 1 Hr Hq). cbn [bind].
    rewrite usub_ok by lia. cbn [bind]. replace (cell b0 (x, y) =? 0) with false by lia.
    rewrite orb_false_r. split; [do 4 f_equal; lia|]. do 2 (split; auto). split; auto. lia.
  - rewrite (get_ok Hr0 Hq). cbn [bind]. exists b.
    destruct (Z.eqb_spec (cell b0 (x, y)) 0) as [E0|E0].
    + rewrite (V0 _ Hq) by lia. rewrite E0.
      destruct Hm as [[-> ->]|[-> ->]]; cbn [Z.ltb Z.compare bind orb].
      * exists 0. split; auto. split; auto. split; [intros ? ? ?; auto|]. split; [lia|]. right; auto.
      * exists 0. split; auto. split; auto. split; [intros ? ? ?; auto|]. split; [lia|]. right; auto.
    + exists m. rewrite orb_false_r. split; auto. split; auto. split; [intros ? ? ?; auto|]. split; auto.
Qed.

Lemma kept_trans b1 b2 b3 : kept b1 b2 -> kept b2 b3 -> kept b1 b3.
Proof. unfold kept. auto. Qed.

Lemma prev_fold D z Q : Z0 z -> (forall q, In q Q -> inb 16 30 q /\ near q z) -> forall b ops m fl, vals D b -> scan_min m fl ->
  exists b' m', foldM (fun st q => exp_prev b0 (fst q) (snd q) st) Q (b, ops, bigs b, m, fl)
      = Ok (b', ops, bigs b', m', fl || existsb (fun q => cell b0 q =? 0) Q) /\
    vals D b' /\ kept b b' /\ (forall q, In q Q -> cell b' q <= 999999) /\
    scan_min m' (fl || existsb (fun q => cell b0 q =? 0) Q).
Proof.
  intros Hz. induction Q as [|q Q IH]; intros HQ b ops m fl HV Hm.
  - exists b, m. cbn [foldM existsb]. rewrite orb_false_r. split; auto. split; auto. split; [intros ? ? ?; auto|]. split; auto. intros q [].
  - destruct (HQ q (or_introl eq_refl)) as [Hq Hn].
    destruct (prev_step ops HV Hz Hq Hn Hm) as (b1 & m1 & E1 & HV1 & K1 & L1 & Hm1).
    destruct (IH (fun q' H => HQ q' (or_intror H)) b1 ops m1 _ HV1 Hm1) as (b2 & m2 & E2 & HV2 & K2 & L2 & Hm2).
    exists b2, m2. cbn [foldM existsb]. rewrite E1. cbn [bind]. rewrite E2. rewrite orb_assoc. split; auto. split; auto.
    split; [eapply kept_trans; eauto|]. split; auto. intros q' [<-|H]; auto.
Qed.

Lemma prior_fold b ops bv x y :
  (let* st := (if (1 <=? x)%nat then
                 foldM (fun st j => exp_prev b0 (x - 1) j st) (rng (Nat.max 1 y - 1) (Nat.min 30 (y + 2))) (b, ops, bv, 1000, false)
               else Ok (b, ops, bv, 1000, false)) in
   if (1 <=? y)%nat then exp_prev b0 x (y - 1) st else Ok st)
  = foldM (fun st q => exp_prev b0 (fst q) (snd q) st) (prior (x, y)) (b, ops, bv, 1000, false).
Proof.
  unfold prior. cbn [fst snd]. rewrite foldM_app.
  assert (E : forall st, (if (1 <=? y)%nat then exp_prev b0 x (y - 1) st else Ok st)
    = foldM (fun st q => exp_prev b0 (fst q) (snd q) st) (if (1 <=? y)%nat then [(x, y - 1)%nat] else []) st).
  { intros st. destruct (1 <=? y)%nat; cbn [foldM]; auto. cbn [fst snd].
    destruct (exp_prev b0 x (y - 1) st); reflexivity. }
  destruct (1 <=? x)%nat; [|apply E]. rewrite foldM_map.
  match goal with |- bind ?m _ = bind ?m' _ => change m' with m; destruct m end; cbn [bind]; auto.
Qed.

Lemma start_prior p : inb 16 30 p -> cell b0 p = 0 ->
  scan_startb 16 30 b0 p = negb (existsb (fun q => cell b0 q =? 0) (prior p)).
Proof.
  intros Hp H0. apply eq_true_iff_eq. rewrite <- scan_startb_iff by auto. rewrite negb_true_iff. split.
  - intros [_ H]. destruct (existsb _ _) eqn:E; auto. exfalso. apply existsb_exists in E as (q & Hq & E).
    apply (in_prior _ Hp) in Hq as (H1 & H2 & H3). apply (H q); auto. lia.
  - intros H. split; [split; auto|]. intros q Hq Hn Hb E.
    assert (existsb (fun q => cell b0 q =? 0) (prior p) = true); [|congruence].
    apply existsb_exists. exists q. split; [|lia]. apply in_prior; auto.
Qed.

(** [ops] has [true] exactly at 1 .. [n] *)
Definition ops_at (n : nat) (ops : list bool) : Prop :=
  length ops = 200%nat /\ forall i, nth i ops false = ((1 <=? i) && (i <=? n))%nat.
Definition past (n : nat) (p : pos) : Prop := (key p < n)%nat.
Definition starts_below (n : nat) : nat := count (fun i => scan_startb 16 30 b0 (unkey i)) (seq 0 n).
Lemma starts_below_S n : starts_below (S n) = (starts_below n + if scan_startb 16 30 b0 (unkey n) then 1 else 0)%nat.
Proof. unfold starts_below. rewrite seq_S, count_app. cbn [Nat.add]. rewrite count_cons, count_nil. destruct (scan_startb _ _ _ _); lia. Qed.
Lemma starts_below_mono n m : (n <= m)%nat -> (starts_below n <= starts_below m)%nat.
Proof. induction 1; auto. rewrite starts_below_S. lia. Qed.
Lemma starts_total : starts_below 480 = count (scan_startb 16 30 b0) (positions 16 30).
Proof. unfold starts_below. rewrite positions_unkey, count_map. reflexivity. Qed.

(** at most one start in every 2 x 2 block *)
Lemma starts_bound : (count (scan_startb 16 30 b0) (positions 16 30) <= 120)%nat.
Proof.
  unfold count. rewrite <- (map_length (fun p => (fst p / 2, snd p / 2)%nat)).
  change 120%nat with (8 * 15)%nat. rewrite <- length_positions. apply NoDup_incl_length.
  - apply NoDup_map_in; [|apply NoDup_filter, NoDup_positions].
    intros p q Hp Hq E. apply filter_In in Hp as [Hp Sp], Hq as [Hq Sq]. apply in_positions in Hp, Hq.
    apply scan_startb_iff in Sp as [[_ Zp] Hp'], Sq as [[_ Zq] Hq']; auto.
    destruct p as [x y], q as [u v]. cbn [fst snd] in *.
    assert (E1 : (x / 2 = u / 2)%nat) by (exact (f_equal fst E)).
    assert (E2 : (y / 2 = v / 2)%nat) by (exact (f_equal snd E)). clear E.
    pose proof (Nat.div_mod x 2 ltac:(lia)). pose proof (Nat.div_mod u 2 ltac:(lia)).
    pose proof (Nat.div_mod y 2 ltac:(lia)). pose proof (Nat.div_mod v 2 ltac:(lia)).
    pose proof (Nat.mod_upper_bound x 2 ltac:(lia)). pose proof (Nat.mod_upper_bound u 2 ltac:(lia)).
    pose proof (Nat.mod_upper_bound y 2 ltac:(lia)). pose proof (Nat.mod_upper_bound v 2 ltac:(lia)).
    destruct (pos_eq_dec (x, y) (u, v)) as [|Hne]; auto. exfalso.
    assert (Hk : x <> u \/ y <> v) by (destruct (Nat.eq_dec x u), (Nat.eq_dec y v); auto; subst; congruence).
    assert (HB : before (u, v) (x, y) \/ before (x, y) (u, v)) by (unfold before; cbn [fst snd]; lia).
    destruct HB as [HB|HB].
    + apply (Hp' (u, v)); auto. unfold near; cbn [fst snd]; lia.
    + apply (Hq' (x, y)); auto. unfold near; cbn [fst snd]; lia.
  - intros x Hx. apply in_map_iff in Hx as (p & <- & Hp). apply filter_In in Hp as [Hp _]. apply in_positions in Hp as [H1 H2].
    apply in_positions. split; cbn [fst snd]; apply Nat.div_lt_upper_bound; lia.
Qed.

(** ** the first pass *)
Definition first_inv (n : nat) (st : board * list bool * nat * nat) : Prop :=
  let '(b, ops, bv, op_id) := st in
  vals (past n) b /\ bv = bigs b /\ op_id = starts_below n /\ ops_at op_id ops /\
  (forall z p, Z0 z -> past n z -> inb 16 30 p -> near p z -> before p z -> cell b p <= 999999).

Lemma first_step n st : (n < 480)%nat -> first_inv n st ->
  exists st', exp_first b0 st (unkey n) = Ok st' /\ first_inv (S n) st'.
Proof.
  destruct st as [[[b ops] bv] op_id]. intros Hn (HV & -> & -> & [Hl Ho] & HD).
  pose proof (unkey_inb Hn) as Hi. pose proof (key_unkey n) as Hk. destruct (unkey n) as [x y] eqn:Exy.
  pose proof HV as (Hr & V0 & V1 & V2). unfold exp_first. rewrite (get_ok Hr Hi). cbn [bind].
  assert (Hpast : forall p, inb 16 30 p -> past (S n) p <-> past n p \/ p = (x, y)).
  { intros p Hp. unfold past. rewrite <- Hk. split; [|intros [H|H]; [lia|subst p; lia]]. intros H.
    destruct (Nat.eq_dec (key p) (key (x, y))) as [Ek|]; [|left; lia]. right.
    rewrite <- (unkey_key (p := p)), <- (unkey_key (p := (x, y))) by (destruct Hp, Hi; auto). now rewrite Ek. }
  assert (Hnp : ~ past n (x, y)) by (unfold past; lia).
  destruct (Z.ltb_spec 0 (cell b (x, y))) as [Hp|Hp].
  - (* a number *)
    assert (Hp0 : 0 < cell b0 (x, y)) by (destruct (Z.lt_ge_cases 0 (cell b0 (x, y))); auto; rewrite V0 in Hp by auto; lia).
    assert (Ens : scan_startb 16 30 b0 (x, y) = false).
    { unfold scan_startb. replace (cell b0 (x, y) =? 0) with false by lia. reflexivity. }
    rewrite (set_ok _ Hr Hi). cbn [bind]. eexists. split; [reflexivity|].
    assert (Hold : cell b (x, y) <= 999999) by (rewrite V1 by auto; apply Hsmall; auto).
    split; [|split; [|split; [|split]]].
    + split; [now apply rect_upd|]. split; [|split]; intros p Hip; rewrite (cell_upd _ _ Hr Hi); destruct (posb_spec (x, y) p) as [<-|Hne]; intros.
      * lia.
      * auto.
      * exfalso. match goal with H : ~ past (S n) _ |- _ => apply H end. apply Hpast; auto.
      * apply V1; auto. intros H1. match goal with H : ~ past (S n) _ |- _ => apply H end. apply Hpast; auto.
      * auto.
      * apply V2; auto. match goal with H : past (S n) _ |- _ => apply Hpast in H as [H|H]; auto; congruence end.
    + pose proof (@count_point _ pos_eq_dec (big b) (big (upd b (x, y) 1000000)) (positions 16 30) (x, y) (NoDup_positions 16 30)) as C.
      cbv beta in C. rewrite (cell_upd_eq _ Hr Hi) in C. replace (999999 <? 1000000) with true in C by lia.
      replace (999999 <? cell b (x, y)) with false in C by lia.
      assert (C1 := C (proj2 (in_positions 16 30 (x, y)) Hi)). lapply C1; [intros C2; cbv iota in C2; lia|].
      intros q Hq. rewrite cell_upd_neq by auto. reflexivity.
    + rewrite starts_below_S, Exy, Ens. lia.
    + split; auto.
    + intros z p Hz Hzp Hip Hnr Hb. apply Hpast in Hzp as [Hzp| ->]; [|destruct Hz; lia|apply Hz].
      rewrite (cell_upd _ _ Hr Hi). destruct (posb_spec (x, y) p) as [<-|]; [|eauto].
      apply key_before in Hb; auto; [|apply Hz]. unfold past in Hzp. lia.
  - destruct (Z.eqb_spec (cell b (x, y)) 0) as [E0|E0].
    + (* a zero *)
      assert (Hz : Z0 (x, y)).
      { split; auto. destruct (Z.lt_ge_cases 0 (cell b0 (x, y))) as [H1|H1]; [rewrite V1 in E0 by auto; lia|rewrite V0 in E0 by auto; auto]. }
      assert (HQ : forall q, In q (prior (x, y)) -> inb 16 30 q /\ near q (x, y)).
      { intros q Hq. apply (in_prior _ Hi) in Hq as (H1 & H2 & _). split; auto using near_sym. }
      destruct (prev_fold Hz HQ ops HV (or_introl (conj eq_refl eq_refl))) as (b' & m' & E & HV' & K & L & _).
      rewrite <- prior_fold in E.
      match type of E with bind ?a ?k = _ => assert (EE : exists s1, a = Ok s1 /\ k s1 = Ok (b', ops, bigs b', m', false || existsb (fun q => cell b0 q =? 0) (prior (x, y)))) by (apply bind_ok; exact E) end.
      destruct EE as (s1 & Es1 & Ek1). rewrite Es1. cbn [bind]. rewrite Ek1. cbn [bind orb].
      pose proof (start_prior Hi (proj2 Hz)) as Est.
      assert (HV2 : vals (past (S n)) b').
      { destruct HV' as (W & W0 & W1 & W2). split; auto. split; auto. split; intros p Hip; intros.
        - apply W1; auto. intros H1. match goal with H : ~ past (S n) _ |- _ => apply H end. apply Hpast; auto.
        - apply W2; auto. match goal with H : past (S n) _ |- _ => apply Hpast in H as [H| ->]; auto end. destruct Hz; lia. }
      assert (HD2 : forall z p, Z0 z -> past (S n) z -> inb 16 30 p -> near p z -> before p z -> cell b' p <= 999999).
      { intros z p Hz' Hzp Hip Hnr Hb. apply Hpast in Hzp as [Hzp| ->]; [| |apply Hz'].
        - apply K; eauto.
        - apply L. apply in_prior; auto using near_sym. }
      destruct (existsb _ (prior (x, y))) eqn:Ex; cbn [negb] in Est.
      * eexists. split; [reflexivity|]. split; auto. split; auto. split; [rewrite starts_below_S, Exy, Est; lia|]. split; auto. split; auto.
      * assert (Hlt : (S (starts_below n) < 200)%nat).
        { pose proof starts_bound as B. rewrite <- starts_total in B. pose proof (@starts_below_mono n 480 ltac:(lia)). lia. }
        rewrite vset_ok by lia. cbn [bind]. eexists. split; [reflexivity|]. split; auto. split; auto.
        split; [rewrite starts_below_S, Exy, Est; lia|]. split; auto. split; [now rewrite length_upd_nth|].
        intros i. destruct (Nat.eq_dec (S (starts_below n)) i) as [<-|Hne]; [rewrite nth_upd_nth_eq by lia; lia|].
        rewrite nth_upd_nth_neq by auto. rewrite Ho. lia.
    + (* a mine *)
      assert (Hneg : cell b0 (x, y) <= 0) by (destruct (Z.lt_ge_cases 0 (cell b0 (x, y))); auto; rewrite V1 in E0, Hp by auto; lia).
      assert (Hne0 : cell b0 (x, y) <> 0) by (rewrite V0 in E0 by auto; auto).
      eexists. split; [reflexivity|]. split; [|split; [|split; [|split]]]; auto.
      * split; auto. split; auto. split; intros p Hip; intros.
        -- apply V1; auto. intros H1. match goal with H : ~ past (S n) _ |- _ => apply H end. apply Hpast; auto.
        -- apply V2; auto. match goal with H : past (S n) _ |- _ => apply Hpast in H as [H| ->]; auto end. lia.
      * rewrite starts_below_S, Exy. unfold scan_startb. replace (cell b0 (x, y) =? 0) with false by lia. cbn [andb]. lia.
      * split; auto.
      * intros z p Hz Hzp. apply Hpast in Hzp as [Hzp| ->]; [eauto| |apply Hz]. destruct Hz; tauto.
Qed.

Lemma first_pass : exists b ops, foldM (exp_first b0) (grid 16 30) (b0, repeat false 200, 0%nat, 0%nat)
    = Ok (b, ops, bigs b, count (scan_startb 16 30 b0) (positions 16 30)) /\
  first_inv 480 (b, ops, bigs b, count (scan_startb 16 30 b0) (positions 16 30)).
Proof.
  rewrite grid_unkey, foldM_map.
  match goal with |- context [foldM ?f (seq 0 480) ?s0] =>
    destruct (@foldM_inv _ nat f (fun done st => first_inv (length done) st) (seq 0 480) s0) as (st & E & HI) end.
  - cbn [length]. split; [|split; [|split; [|split]]].
    + split; auto. split; auto. split; auto. intros p _ _ H. unfold past in H. lia.
    + symmetry. apply count_zero. intros p Hp. apply in_positions in Hp. pose proof (Hsmall Hp). lia.
    + reflexivity.
    + split; [apply repeat_length|]. intros i. rewrite nth_repeat. lia.
    + intros z p _ H. unfold past in H. lia.
  - intros done i rest st Es HI. destruct (seq_split Es) as [-> Hlt].
    destruct (first_step Hlt HI) as (st' & E & HI'). exists st'. split; auto. rewrite app_length. cbn [length].
    rewrite Nat.add_1_r. exact HI'.
  - rewrite seq_length in HI. rewrite E. destruct st as [[[b ops] bv] op_id]. exists b, ops.
    pose proof HI as (HV & Hb & Ho & _). rewrite <- starts_total. rewrite <- Hb, <- Ho. auto.
Qed.

(** ** the second pass *)
Definition all (p : pos) : Prop := (key p < 480)%nat.
Lemma next_step b ops z q : vals all b -> Z0 z -> inb 16 30 q -> near q z ->
  exists b', exp_next b0 (fst z) (snd z) (fst q) (snd q) (b, ops, bigs b) = Ok (b', ops, bigs b') /\
    vals all b' /\ kept b b' /\ cell b' q <= 999999.
Proof.
  intros HV Hz Hq Hn. pose proof HV as (Hr & V0 & V1 & V2). destruct q as [x y], z as [u v]. cbn [fst snd].
  unfold exp_next. rewrite (get_ok Hr Hq). cbn [bind].
  destruct (Z.ltb_spec 999999 (cell b (x, y))) as [Hb|Hb].
  - destruct (touch HV Hz Hq Hn Hb) as (HV' & C & K & E & Hp).
    exists (upd b (x, y) 1). rewrite (set_ok 1 Hr Hq). cbn [bind].
    rewrite usub_ok by lia. cbn [bind]. split; [do 2 f_equal; lia|]. do 2 (split; auto). lia.
  - rewrite (get_ok Hr0 Hq). cbn [bind]. exists b. split; [|split; [auto|split; [intros ? ? ?; auto|lia]]].
    destruct (Z.eqb_spec (cell b0 (x, y)) 0) as [E0|E0]; auto.
    rewrite (get_ok Hr (proj1 Hz)). cbn [bind].
    rewrite (V0 _ Hq), (V0 _ (proj1 Hz)) by (destruct Hz; lia). rewrite E0, (proj2 Hz). reflexivity.
Qed.
Lemma next_fold z Q : Z0 z -> (forall q, In q Q -> inb 16 30 q /\ near q z) -> forall b ops, vals all b ->
  exists b', foldM (fun st q => exp_next b0 (fst z) (snd z) (fst q) (snd q) st) Q (b, ops, bigs b) = Ok (b', ops, bigs b') /\
    vals all b' /\ kept b b' /\ (forall q, In q Q -> cell b' q <= 999999).
Proof.
  intros Hz. induction Q as [|q Q IH]; intros HQ b ops HV.
  - exists b. split; auto. split; auto. split; [intros ? ? ?; auto|]. intros q [].
  - destruct (HQ q (or_introl eq_refl)) as [Hq Hn].
    destruct (next_step ops HV Hz Hq Hn) as (b1 & E1 & HV1 & K1 & L1).
    destruct (IH (fun q' H => HQ q' (or_intror H)) b1 ops HV1) as (b2 & E2 & HV2 & K2 & L2).
    exists b2. cbn [foldM]. rewrite E1. cbn [bind]. split; auto. split; auto.
    split; [eapply kept_trans; eauto|]. intros q' [<-|H]; auto.
Qed.
Lemma second_fold st x y :
  (let* st := (if (x <=? 14)%nat then
                 foldM (fun st j => exp_next b0 x y (x + 1) j st) (rng (Nat.max 1 y - 1) (Nat.min 30 (y + 2))) st
               else Ok st) in
   if (y <=? 28)%nat then exp_next b0 x y x (y + 1) st else Ok st)
  = foldM (fun st q => exp_next b0 x y (fst q) (snd q) st) (next (x, y)) st.
Proof.
  unfold next. cbn [fst snd]. rewrite foldM_app.
  assert (E : forall st, (if (y <=? 28)%nat then exp_next b0 x y x (y + 1) st else Ok st)
    = foldM (fun st q => exp_next b0 x y (fst q) (snd q) st) (if (y <=? 28)%nat then [(x, y + 1)%nat] else []) st).
  { intros st'. destruct (y <=? 28)%nat; cbn [foldM]; auto. cbn [fst snd].
    destruct (exp_next b0 x y x (y + 1) st'); reflexivity. }
  destruct (x <=? 14)%nat; [|apply E]. rewrite foldM_map.
  match goal with |- bind ?m _ = bind ?m' _ => change m' with m; destruct m end; cbn [bind]; auto.
Qed.

Lemma second_pass b ops : vals all b ->
  exists b', foldM (exp_second b0) (rev (grid 16 30)) (b, ops, bigs b) = Ok (b', ops, bigs b') /\
    vals all b' /\ kept b b' /\
    (forall z p, Z0 z -> inb 16 30 p -> near p z -> before z p -> cell b' p <= 999999).
Proof.
  intros HV.
  destruct (@foldM_inv _ pos (exp_second b0) (fun done st => exists b', st = (b', ops, bigs b') /\ vals all b' /\ kept b b' /\
     (forall z p, In z done -> Z0 z -> inb 16 30 p -> near p z -> before z p -> cell b' p <= 999999))
     (rev (grid 16 30)) (b, ops, bigs b)) as (st & E & b' & -> & HV' & K & HD).
  - exists b. split; auto. split; auto. split; [intros ? ? ?; auto|]. intros z p [].
  - intros done z rest st Es (b1 & -> & HV1 & K1 & HD1).
    assert (Hin : inb 16 30 z).
    { apply in_grid, in_rev. rewrite Es. apply in_or_app. right. left. reflexivity. }
    pose proof HV1 as (Hr & V0 & V1 & V2). destruct z as [x y]. unfold exp_second. cbn [fst snd]. rewrite (get_ok Hr Hin). cbn [bind].
    destruct (Z.eqb_spec (cell b1 (x, y)) 0) as [E0|E0].
    + assert (Hz : Z0 (x, y)).
      { split; auto. destruct (Z.lt_ge_cases 0 (cell b0 (x, y))) as [H1|H1]; [|rewrite V0 in E0 by auto; auto].
        exfalso. destruct (V2 (x, y)) as [H2|[H2 _]]; auto; try lia. apply key_lt; auto. }
      assert (HQ : forall q, In q (next (x, y)) -> inb 16 30 q /\ near q (x, y)).
      { intros q Hq. apply (in_next _ Hin) in Hq as (H1 & H2 & _). split; auto using near_sym. }
      destruct (next_fold Hz HQ ops HV1) as (b2 & E2 & HV2 & K2 & L2). cbn [fst snd] in E2.
      rewrite second_fold. eexists. split; [exact E2|]. exists b2. split; auto. split; auto. split; [eapply kept_trans; eauto|].
      intros z p Hz1 Hz2 Hp Hnr Hb. apply in_app_or in Hz1 as [Hz1|[<-|[]]].
      * apply K2; eauto.
      * apply L2. apply in_next; auto using near_sym.
    + eexists. split; [reflexivity|]. exists b1. split; auto. split; auto. split; auto.
      intros z p Hz1 Hz2 Hp Hnr Hb. apply in_app_or in Hz1 as [Hz1|[<-|[]]]; eauto.
      exfalso. apply E0. rewrite V0; auto; destruct Hz2; lia.
  - exists b'. split; auto. split; auto. split; auto. intros z p Hz Hp Hnr Hb. apply (HD z); auto.
    apply -> in_rev. apply in_grid. apply Hz.
Qed.

Lemma count_ops ops n k : ops_at n ops -> (n < 200)%nat ->
  foldM (fun bv i => let* f := vget ops i in Ok (if f : bool then S bv else bv)) (seq 0 (n + 1)) k = Ok (k + n)%nat.
Proof.
  intros [Hl Ho] Hn.
  assert (G : forall m s k, (s + m <= n + 1)%nat -> 
     foldM (fun bv i => let* f := vget ops i in Ok (if f : bool then S bv else bv)) (seq s m) k = Ok (k + (if s =? 0 then m - 1 else m))%nat).
  { induction m as [|m IH]; intros s k' Hs; [cbn [seq foldM]; destruct (s =? 0)%nat; f_equal; lia|].
    cbn [seq foldM]. rewrite (vget_ok false) by lia. cbn [bind]. rewrite IH by lia. rewrite Ho. f_equal.
    destruct (Nat.eqb_spec s 0) as [->|]; [cbn [Nat.leb andb Nat.eqb]; lia|]. cbn [Nat.eqb].
    replace ((1 <=? s) && (s <=? n))%nat with true by lia. lia. }
  rewrite G by lia. f_equal. cbn [Nat.eqb]. lia.
Qed.

Lemma exp_exact : cal_bbbv_exp b0 =
  Ok (count (island_cellb 16 30 b0) (positions 16 30) + count (scan_startb 16 30 b0) (positions 16 30))%nat.
Proof.
  destruct first_pass as (b & ops & E1 & HV & _ & _ & Ho & HD). unfold cal_bbbv_exp. rewrite E1. cbn [bind].
  destruct (@second_pass b ops HV) as (b' & E2 & HV' & K & HD'). rewrite E2. cbn [bind].
  pose proof starts_bound as B. rewrite count_ops by (auto; lia). f_equal. f_equal.
  apply count_ext. intros p Hp. apply in_positions in Hp. pose proof HV' as (Hr & V0 & V1 & V2).
  apply eq_true_iff_eq. rewrite Z.ltb_lt. unfold island_cellb. rewrite andb_true_iff, Z.ltb_lt, forallb_forall. split.
  - intros Hb. assert (Hp0 : 0 < cell b0 p) by (destruct (Z.lt_ge_cases 0 (cell b0 p)); auto; rewrite V0 in Hb by auto; lia).
    split; auto. intros q Hq. apply in_positions in Hq. apply negb_true_iff. destruct (nearb_spec p q) as [Hn|]; cbn [andb]; auto.
    apply Z.eqb_neq. intros E. assert (Hz : Z0 q) by (split; auto).
    assert (Hd : before p q \/ before q p).
    { assert (Hk : p <> q) by (intros ->; lia). unfold before. destruct p as [x y], q as [u v]; cbn [fst snd].
      assert (x <> u \/ y <> v) by (destruct (Nat.eq_dec x u), (Nat.eq_dec y v); auto; subst; congruence). lia. }
    destruct Hd as [Hd|Hd].
    + assert (cell b' p <= 999999); [|lia]. apply K; auto. apply (HD q); auto. apply key_lt; auto.
    + assert (cell b' p <= 999999); [|lia]. apply (HD' q); auto.
  - intros [Hp0 Hall]. destruct (V2 p Hp Hp0) as [E|[_ (z & Hz & Hn)]]; [apply key_lt; auto|lia|].
    exfalso. assert (Hz1 := proj2 (in_positions 16 30 z) (proj1 Hz)). specialize (Hall z Hz1).
    destruct (nearb_spec p z); [|tauto]. rewrite (proj2 Hz) in Hall. discriminate Hall.
Qed.

(** ** against the number of components *)
Lemma start_reaches : forall n z, (key z < n)%nat -> Z0 z ->
  exists s, inb 16 30 s /\ scan_startb 16 30 b0 s = true /\ connected Z0 s z.
Proof.
  induction n as [|n IH]; intros z Hk Hz; [lia|]. pose proof (proj1 Hz) as Hi.
  destruct (scan_startb 16 30 b0 z) eqn:E; [exists z; split; auto; split; auto; now apply conn_refl|].
  rewrite (start_prior Hi (proj2 Hz)) in E. apply negb_false_iff, existsb_exists in E as (q & Hq & E).
  apply (in_prior _ Hi) in Hq as (H1 & H2 & H3). apply Z.eqb_eq in E.
  destruct (IH q) as (s & Hs1 & Hs2 & Hs3); [apply key_before in H3; auto; lia|split; auto|].
  exists s. split; auto. split; auto. eapply conn_step; [exact Hs3|now apply near_sym|exact Hz].
Qed.
End S.
