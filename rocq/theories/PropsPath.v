(** * PropsPath: the path length reported by a video (C78).

    Flocq, binary64. [powf(_, 0.5)] is any function [powh] of binary64 numbers that is within two
    roundings of the square root on the whole numbers below 2^33 ([good_root]); the correctly rounded
    square root is one. *)
From Coq Require Import ZArith Reals Lra.
From Flocq Require Import Core IEEE754.BinarySingleNaN IEEE754.Binary IEEE754.Bits.
From Verif Require Import Base Spec BaseFacts LayMine LayMineProofs Metrics Refresh MineBoard OpProofs
  MineBoardProofs MineBoardFrame BoardCache Evf EvfSpec EvfProofs BaseVideo GameStats ReplayProofs PropsEvf PropsSetters PropsGame PropsReplay
  FloatTime FloatTrace PathFloat PathProofs.
Open Scope Z_scope.

Notation real := Rdefinitions.R.
Local Notation val := (B2R 53 1024).
Local Notation rnd := (round radix2 (SpecFloat.fexp 53 1024) ZnearestE).

(** ** Vocabulary *)
Definition good_root (powh : binary64 -> binary64) : Prop :=
  forall N, 0 <= N < 2 ^ 33 -> near 2 (sqrt (IZR N)) (powh (f64_of_Z N)).
(** the length in pixels of the walk through these events *)
Fixpoint walk (l : list rec) : real :=
  match l with
  | a :: t => match t with
              | [] => 0
              | b :: _ => (sqrt (IZR ((r_y b - r_y a) * (r_y b - r_y a) + (r_x b - r_x a) * (r_x b - r_x a))) + walk t)%R
              end
  | [] => 0%R
  end.
(** an event on the board *)
Definition on_board (v : bv) (r : rec) : bool :=
  (r_y r <? Z.of_nat (v_height (b_meta v)) * v_pix (b_meta v)) && (r_x r <? Z.of_nat (v_width (b_meta v)) * v_pix (b_meta v)).
(** [x] is the number [a], up to a relative error of one millionth *)
Definition close (a : real) (x : binary64) : Prop :=
  is_finite 53 1024 x = true /\ (Rabs (val x - a) <= a / 1000000)%R.
(** the f64 path of an event of [v] *)
Definition path_of (powh : binary64 -> binary64) (v : bv) (r : rec) : binary64 := path_f64 powh (v_pix (b_meta v)) (r_hops r).

(** ** Rounding *)
Lemma plus_near' n a b x y : near n a x -> near n b y -> (a + b = 0 \/ bpow radix2 (-20) <= a + b)%R -> (a + b <= bpow radix2 100)%R -> (w ^ S n <= 2)%R ->
  near (S n) (a + b) (b64_plus mode_NE x y).
Proof.
  intros Hx Hy Hab Hbig Hw. pose proof (near_pos Hx) as Ha. pose proof (near_pos Hy) as Hb. pose proof (w_pow n) as W1. pose proof w_gt as W.
  assert (Wn : (w ^ n <= 2)%R) by (cbn [pow] in Hw; nra).
  pose proof (nr_lo Hx). pose proof (nr_lo Hy). pose proof (nr_hi Hx). pose proof (nr_hi Hy). pose proof (nr_pos Hx). pose proof (nr_pos Hy).
  set (t := (val x + val y)%R). assert (T1 : (a + b <= t * w ^ n)%R) by (unfold t; lra). assert (T2 : (t <= (a + b) * w ^ n)%R) by (unfold t; lra).
  assert (Tt : (t = 0 \/ bpow radix2 (-1022) <= t)%R).
  { destruct Hab as [E|E]; [left; nra|right]. apply Rle_trans with (bpow radix2 (-21)); [apply bpow_le; lia|].
    replace (bpow radix2 (-20)) with (2 * bpow radix2 (-21))%R in E by (simpl; lra). assert (bpow radix2 (-21) > 0)%R by apply bpow_gt_0. nra. }
  assert (T0 : (0 <= t)%R) by (unfold t; lra).
  destruct (rnd_near T0 Tt) as (R0 & R1 & R2).
  pose proof (Bplus_correct 53 1024 (eq_refl : (0 < 53)%Z) (eq_refl : (53 < 1024)%Z) binop_nan_pl64 mode_NE x y (nr_fin Hx) (nr_fin Hy)) as HD.
  change (round_mode mode_NE) with ZnearestE in HD. change (Rdefinitions.RbaseSymbolsImpl.Rplus (val x) (val y)) with t in HD.
  rewrite Rlt_bool_true in HD.
  2:{ rewrite Rabs_pos_eq by auto. apply Rle_lt_trans with (4 * bpow radix2 100)%R.
      - apply Rle_trans with (1 := R2). pose proof (bpow_gt_0 radix2 100). assert (t <= 2 * bpow radix2 100)%R by nra. assert (w <= 2)%R. { pose proof (w_pow n). cbn [pow] in Hw. nra. } nra.
      - replace 4%R with (bpow radix2 2) by (simpl; lra). rewrite <- bpow_plus. apply bpow_lt. lia. }
  destruct HD as (V & F & B). change (Bplus 53 1024 eq_refl eq_refl binop_nan_pl64 mode_NE x y) with (b64_plus mode_NE x y) in *.
  constructor; auto.
  - rewrite B. destruct (Rcompare_spec t 0); [lra| |reflexivity]. rewrite (nr_sign Hx), (nr_sign Hy). reflexivity.
  - now rewrite V.
  - rewrite V. cbn [pow]. nra.
  - rewrite V. cbn [pow]. nra.
Qed.
Lemma of_Z_near n : 0 < n < 2 ^ 53 -> near 1 (IZR n) (f64_of_Z n).
Proof.
  intros Hn. destruct (f64_of_Z_ok n) as [V F]; [lia|]. assert (P : (0 < IZR n)%R) by (apply IZR_lt; lia).
  destruct (@sign_pos (f64_of_Z n) F) as (m & e & He & E); [now rewrite V|]. pose proof w_gt.
  constructor; auto; rewrite ?V; cbn [pow]; try nra. now rewrite E.
Qed.
Lemma mult16_near n a x : near n a x -> (a = 0 \/ 1 <= a)%R -> (a <= bpow radix2 40)%R -> (w ^ S n <= 2)%R ->
  near (S n) (a * 16) (b64_mult mode_NE x (f64_of_Z 16)).
Proof.
  intros Hx Ha Hb Hw. destruct (f64_of_Z_ok 16) as [V16 F16]; [lia|]. pose proof (w_pow n) as W1. pose proof w_gt as W.
  assert (Wn : (w ^ n <= 2)%R) by (cbn [pow] in Hw; nra). assert (W2 : (w <= 2)%R) by (cbn [pow] in Hw; nra).
  pose proof (nr_lo Hx). pose proof (nr_hi Hx). pose proof (nr_pos Hx). pose proof (near_pos Hx).
  set (t := (val x * 16)%R). assert (T0 : (0 <= t)%R) by (unfold t; lra).
  assert (Tt : (t = 0 \/ bpow radix2 (-1022) <= t)%R).
  { destruct Ha as [->|Ha]; [left; unfold t; nra|right]. apply Rle_trans with (bpow radix2 0); [apply bpow_le; lia|]. simpl. unfold t. assert (1 <= val x * 2)%R by nra. lra. }
  destruct (rnd_near T0 Tt) as (R0 & R1 & R2).
  pose proof (Bmult_correct 53 1024 (eq_refl : (0 < 53)%Z) (eq_refl : (53 < 1024)%Z) binop_nan_pl64 mode_NE x (f64_of_Z 16)) as HD.
  change (round_mode mode_NE) with ZnearestE in HD. rewrite V16 in HD. change (Rdefinitions.RbaseSymbolsImpl.Rmult (val x) 16) with t in HD.
  rewrite Rlt_bool_true in HD.
  2:{ rewrite Rabs_pos_eq by auto. apply Rle_lt_trans with (64 * bpow radix2 40)%R.
      - apply Rle_trans with (1 := R2). pose proof (bpow_gt_0 radix2 40). assert (val x <= 2 * bpow radix2 40)%R by nra. assert (t <= 32 * bpow radix2 40)%R by (unfold t; lra). nra.
      - replace 64%R with (bpow radix2 6) by (simpl; lra). rewrite <- bpow_plus. apply bpow_lt. lia. }
  destruct HD as (V & F & B). change (Bmult 53 1024 eq_refl eq_refl binop_nan_pl64 mode_NE x (f64_of_Z 16)) with (b64_mult mode_NE x (f64_of_Z 16)) in *.
  rewrite (nr_fin Hx), F16 in F.
  constructor; auto.
  - rewrite B; [|destruct (b64_mult _ _ _); try reflexivity; discriminate F]. rewrite (nr_sign Hx). destruct (@of_Z_near 16 ltac:(lia)) as [_ S16 _ _ _]. now rewrite S16.
  - now rewrite V.
  - rewrite V. cbn [pow]. apply Rle_trans with (t * w ^ n)%R; [unfold t; nra|]. replace (rnd t * (w * w ^ n))%R with (rnd t * w * w ^ n)%R by ring. apply Rmult_le_compat_r; nra.
  - rewrite V. cbn [pow]. apply Rle_trans with (t * w)%R; [exact R2|]. unfold t. replace (a * 16 * (w * w ^ n))%R with (a * w ^ n * 16 * w)%R by ring. apply Rmult_le_compat_r; nra.
Qed.

(** ** One move, and all of them *)
Definition norm2 (d : Z * Z) : Z := fst d * fst d + snd d * snd d.
Definition small_move (d : Z * Z) : Prop := -65536 < fst d < 65536 /\ -65536 < snd d < 65536.
Definition hlen (pix : Z) (d : Z * Z) : real := (sqrt (IZR (norm2 d)) * 16 / IZR pix)%R.
Definition hsum (pix : Z) (l : list (Z * Z)) : real := fold_right (fun d s => (hlen pix d + s)%R) 0%R l.
Lemma norm2_range d : small_move d -> 0 <= norm2 d < 2 ^ 33.
Proof. intros [H1 H2]. unfold norm2. nia. Qed.
Lemma norm_bound d : small_move d -> (0 <= sqrt (IZR (norm2 d)) <= IZR (2 ^ 17))%R.
Proof.
  intros Hd. split; [apply sqrt_pos|]. pose proof (norm2_range Hd). rewrite <- (sqrt_square (IZR (2 ^ 17))) by (apply IZR_le; lia).
  apply sqrt_le_1_alt. rewrite <- mult_IZR. apply IZR_le. lia.
Qed.
Lemma hlen_bound pix d : 0 < pix < 256 -> small_move d -> (hlen pix d = 0 \/ bpow radix2 (-20) <= hlen pix d)%R /\ (0 <= hlen pix d <= bpow radix2 21)%R.
Proof.
  intros Hp Hd. pose proof (norm_bound Hd) as [N0 N1]. unfold hlen. assert (P1 : (1 <= IZR pix)%R) by (apply IZR_le; lia). assert (P2 : (IZR pix <= 256)%R) by (apply IZR_le; lia).
  assert (I1 : (/ 256 <= / IZR pix <= 1)%R) by (split; [apply Rinv_le; lra|rewrite <- Rinv_1; apply Rinv_le; lra]).
  unfold Rdiv. split.
  - destruct (@sqrt_case (norm2 d)) as [E|E]; [apply norm2_range; auto| |]; [left; rewrite E, sqrt_0; lra|right].
    apply Rle_trans with (bpow radix2 (-4)); [apply bpow_le; lia|]. simpl. nra.
  - split; [nra|]. simpl. change (IZR (2 ^ 17)) with 131072%R in N1. nra.
Qed.
Lemma w_le2 n : Z.of_nat n <= 2 ^ 31 -> (w ^ n <= 2)%R.
Proof. intros Hn. pose proof (w_small Hn). lra. Qed.
Lemma hop_near powh pix d : good_root powh -> 0 < pix < 256 -> small_move d -> near 5 (hlen pix d) (hop_f64 powh pix d).
Proof.
  intros Hg Hp Hd. pose proof (norm2_range Hd) as HN. pose proof (norm_bound Hd) as [N0 N1]. unfold hlen, hop_f64. fold (norm2 d).
  assert (Hc : (sqrt (IZR (norm2 d)) = 0 \/ 1 <= sqrt (IZR (norm2 d)))%R).
  { destruct (@sqrt_case (norm2 d)) as [E|E]; [lia|left; rewrite E; apply sqrt_0|auto]. }
  assert (B1 : (IZR (2 ^ 17) <= bpow radix2 40)%R) by (rewrite bpow_2 by lia; apply IZR_le; lia).
  assert (B2 : (IZR (2 ^ 17) * 16 <= bpow radix2 100)%R) by (rewrite bpow_2 by lia; rewrite <- mult_IZR; apply IZR_le; lia).
  apply (@div_near 3).
  - apply mult16_near; [apply Hg; lia|exact Hc|lra|apply w_le2; lia].
  - apply of_Z_near. lia.
  - split; [apply IZR_le; lia|]. rewrite bpow_2 by lia. apply IZR_le. lia.
  - destruct Hc as [->|Hc]; [left; lra|right; lra].
  - nra.
  - apply w_le2. lia.
Qed.
Lemma hsum_bound pix l : 0 < pix < 256 -> Forall small_move l -> (hsum pix l = 0 \/ bpow radix2 (-20) <= hsum pix l)%R /\ (0 <= hsum pix l <= INR (length l) * bpow radix2 21)%R.
Proof.
  intros Hp. induction 1 as [|d l Hd _ [IH1 IH2]]; [cbn; lra|]. destruct (hlen_bound Hp Hd) as [D1 [D2 D3]]. destruct IH2 as [I2 I3]. cbn [hsum fold_right length]. fold (hsum pix l).
  rewrite S_INR. split; [|split; lra]. destruct D1 as [D1|D1]; [rewrite D1, Rplus_0_l; auto|right; lra].
Qed.
Lemma hsum_app pix l l' : hsum pix (l ++ l') = (hsum pix l + hsum pix l')%R.
Proof.
  induction l as [|d l IH]; [symmetry; apply Rplus_0_l|]. cbn [app hsum fold_right]. fold (hsum pix (l ++ l')). fold (hsum pix l). rewrite IH. symmetry. apply Rplus_assoc.
Qed.
Lemma path_near powh pix l : good_root powh -> 0 < pix < 256 -> Forall small_move l -> Z.of_nat (length l) <= 2 ^ 29 ->
  near (5 + length l) (hsum pix l) (path_f64 powh pix l).
Proof.
  intros Hg Hp. induction l as [|d l IH] using rev_ind; intros Hl Hn.
  - cbn [length hsum fold_right path_f64 fold_left]. apply near_mono with 0%nat; [lia|]. destruct (f64_of_Z_ok 0) as [V F]; [lia|]. constructor; auto; rewrite ?V; cbn; lra.
  - apply Forall_app in Hl as [Hl Hd]. inversion Hd as [|? ? Hd' _]; subst. rewrite app_length in *. cbn [length] in *.
    replace (5 + (length l + 1))%nat with (S (5 + length l)) by lia. rewrite hsum_app. unfold path_f64. rewrite fold_left_app. cbn [fold_left]. fold (path_f64 powh pix l).
    replace (hsum pix [d]) with (hlen pix d) by (cbn; lra). destruct (hlen_bound Hp Hd') as [D1 D2]. destruct (hsum_bound Hp Hl) as [S1 S2].
    apply plus_near'.
    + apply IH; auto. lia.
    + apply near_mono with 5%nat; [lia|]. now apply hop_near.
    + destruct D1 as [->|D1]; [rewrite Rplus_0_r; exact S1|right; lra].
    + apply Rle_trans with (INR (S (length l)) * bpow radix2 21)%R; [rewrite S_INR; nra|]. rewrite INR_IZR_INZ.
      apply Rle_trans with (IZR (2 ^ 29) * bpow radix2 21)%R; [apply Rmult_le_compat_r; [apply bpow_ge_0|apply IZR_le; lia]|]. rewrite <- bpow_2 by lia. rewrite <- bpow_plus. apply bpow_le. lia.
    + apply w_le2. lia.
Qed.
Lemma near_close n a x : Z.of_nat n <= 2 ^ 31 -> near n a x -> close a x.
Proof.
  intros Hn H. pose proof (w_small Hn) as Hw. pose proof (w_pow n) as W1. pose proof (near_pos H). destruct H as [F _ P L U]. split; [exact F|]. apply Rabs_le. set (q := (w ^ n)%R) in *.
  assert (a <= val x * (1 + / 1000000))%R by nra. assert (val x <= a * (1 + / 1000000))%R by nra. lra.
Qed.
Lemma hsum_moves pix l : hsum pix (moves l) = (walk l * 16 / IZR pix)%R.
Proof.
  induction l as [|a l IH]; [cbn; unfold Rdiv; lra|]. destruct l as [|b l]; [cbn; unfold Rdiv; lra|].
  change (moves (a :: b :: l)) with (move a b :: moves (b :: l)). cbn [hsum fold_right]. fold (hsum pix (moves (b :: l))). rewrite IH.
  change (walk (a :: b :: l)) with (sqrt (IZR (norm2 (move a b))) + walk (b :: l))%R. unfold hlen, Rdiv. ring.
Qed.
Lemma small_moves l : Forall (fun r => 0 <= r_x r < 65536 /\ 0 <= r_y r < 65536) l -> Forall small_move (moves l).
Proof.
  induction 1 as [|a l Ha Hl IH]; [constructor|]. destruct Hl as [|b l Hb Hl]; [constructor|]. change (moves (a :: b :: l)) with (move a b :: moves (b :: l)).
  constructor; [|exact IH]. unfold small_move, move. cbn [fst snd]. lia.
Qed.

(** ** C78 *)
Lemma app_inj_1 {A} (l1 l2 k1 k2 : list A) : length l1 = length k1 -> l1 ++ l2 = k1 ++ k2 -> l1 = k1 /\ l2 = k2.
Proof.
  revert k1; induction l1 as [|x l1 IH]; intros [|y k1] Hl E; cbn in *; try discriminate; auto.
  injection E as -> E. injection Hl as Hl. destruct (IH _ Hl E) as [-> ->]. auto.
Qed.
Lemma session_walked v0 cs v : fresh_game v0 -> ok_session v0 cs -> vexec v0 cs = Ok v ->
  b_rec v = [] \/ (0 < v_pix (b_meta v) /\ Forall (fun r => 0 <= r_x r < 65536 /\ 0 <= r_y r < 65536) (b_rec v) /\
    ((Forall (fun r => (r_useful r < 2)%nat) (b_rec v) /\ map r_hops (b_rec v) = map (fun _ => []) (b_rec v)) \/
     exists pre q mid, b_rec v = pre ++ q :: mid /\ (2 <= r_useful q)%nat /\ Forall (fun r => (r_useful r < 2)%nat) pre /\
       on_board v q = true /\ map r_hops (pre ++ [q]) = map (fun _ => []) (pre ++ [q]) /\
       forall m1 r m2, mid = m1 ++ r :: m2 -> r_hops r = moves (filter (on_board v) (q :: m1) ++ [r]))).
Proof.
  intros Hf Hok E. pose proof (session_LI (fresh_LI Hf) Hok E) as [H1 H2 _ H4].
  destruct H4 as [(G1 & _)|(m & bs & d & L & _ & Hne & _)]; [auto|right]. unfold log_of in L.
  destruct (logged_coords L) as [Hc [Hz|Hp]]; [contradiction|]. assert (Hp' : 0 < v_pix (b_meta v)) by lia. split; [exact Hp'|]. split; [exact Hc|].
  destruct (logged_walked H1 H2 L) as [Hw|[Hw _]]; [left; exact Hw|right]. destruct Hw as (pre & q & mid & A1 & A2 & A3 & A4 & A5 & A6).
  rewrite Z2Nat.id in A4, A6 by lia.
  assert (Ho : forall r, insideb (Z.of_nat (v_height (b_meta v)) * v_pix (b_meta v)) (Z.of_nat (v_width (b_meta v)) * v_pix (b_meta v)) r = on_board v r) by (intros r; unfold insideb, on_board; lia).
  exists pre, q, mid. rewrite <- Ho. do 5 (split; [assumption|]). intros m1 r m2 Em. rewrite (A6 _ _ _ Em). rewrite (filter_ext _ _ Ho). reflexivity.
Qed.
Lemma split_at_open pre q mid pre' q' mid' : pre ++ q :: mid = pre' ++ q' :: mid' -> (2 <= r_useful q)%nat -> (2 <= r_useful q')%nat ->
  Forall (fun r => (r_useful r < 2)%nat) pre -> Forall (fun r => (r_useful r < 2)%nat) pre' -> pre = pre' /\ q = q' /\ mid = mid'.
Proof.
  revert pre'; induction pre as [|x pre IH]; intros [|y pre'] E Hq Hq' F F'; cbn in E.
  - injection E as -> ->. auto.
  - injection E as -> _. inversion F'; lia.
  - injection E as -> _. inversion F; lia.
  - injection E as -> E. inversion F; inversion F'; subst. destruct (IH _ E) as (-> & -> & ->); auto.
Qed.

(** Up to and including the opening click (the first event that opens a cell), the path is 0. *)
Theorem C78_path_before_opening : forall powh v0 cs v pre r post,
  fresh_game v0 -> ok_session v0 cs -> vexec v0 cs = Ok v ->
  b_rec v = pre ++ r :: post -> Forall (fun r => (r_useful r < 2)%nat) pre ->
  path_of powh v r = f64_of_Z 0.
Proof.
  intros powh v0 cs v pre r post H1 H2 H3 Er Hpre. destruct (session_walked H1 H2 H3) as [E|(_ & _ & [[_ Hm]|(p & q & mid & A1 & A2 & A3 & _ & A5 & _)])].
  - rewrite E in Er. destruct pre; discriminate.
  - rewrite Er, !map_app in Hm. cbn [map] in Hm. apply app_inj_1 in Hm as [_ Hm]; [|now rewrite !map_length]. injection Hm as Hm _. unfold path_of. now rewrite Hm.
  - assert (Hh : r_hops r = []); [|unfold path_of; now rewrite Hh].
    assert (Hin : In r (p ++ [q])).
    { rewrite Er in A1. clear Er. revert p A1 A3 A5. induction pre as [|x pre IH]; intros [|y p] A1 A3 A5; cbn in A1.
      - injection A1 as -> _. now left.
      - injection A1 as -> _. now left.
      - injection A1 as -> _. inversion Hpre; lia.
      - injection A1 as -> A1. inversion Hpre; inversion A3; subst. right. apply IH; auto. cbn [app map] in A5. now injection A5. }
    apply in_split in Hin as (l1 & l2 & El). rewrite El, !map_app in A5. cbn [map] in A5. apply app_inj_1 in A5 as [_ A5]; [|now rewrite !map_length]. now injection A5.
Qed.
Print Assumptions C78_path_before_opening.

Lemma session_coords v0 cs v : fresh_game v0 -> ok_session v0 cs -> vexec v0 cs = Ok v ->
  Forall (fun r => 0 <= r_x r < 65536 /\ 0 <= r_y r < 65536) (b_rec v).
Proof. intros H1 H2 H3. destruct (session_walked H1 H2 H3) as [->|(_ & Hc & _)]; [constructor|exact Hc]. Qed.
Lemma filter_forall {A} (P : A -> Prop) f l : Forall P l -> Forall P (filter f l).
Proof. induction 1 as [|x l Hx _ IH]; cbn; [constructor|]. destruct (f x); auto. Qed.
Lemma moves_close powh pix l : good_root powh -> 0 < pix < 256 -> Forall (fun r => 0 <= r_x r < 65536 /\ 0 <= r_y r < 65536) l -> Z.of_nat (length l) <= 2 ^ 29 ->
  close (walk l * 16 / IZR pix) (path_f64 powh pix (moves l)).
Proof.
  intros Hg Hp Hl Hn. rewrite <- hsum_moves. apply near_close with (5 + length (moves l))%nat; [rewrite moves_length; lia|].
  apply path_near; auto; [now apply small_moves|]. rewrite moves_length. lia.
Qed.

(** After the opening click [q], the path of an event [r] is the length of the walk from [q] through
    the events on the board (those outside are skipped) to [r], in units of 1/16 of a cell. *)
Theorem C78_path_is_the_walk : forall powh v0 cs v pre q mid r post,
  good_root powh -> fresh_game v0 -> ok_session v0 cs -> vexec v0 cs = Ok v ->
  v_pix (b_meta v) < 256 -> Z.of_nat (length (b_rec v)) <= 2 ^ 29 ->
  b_rec v = pre ++ q :: mid ++ r :: post ->
  (2 <= r_useful q)%nat -> Forall (fun r => (r_useful r < 2)%nat) pre ->
  close (walk (q :: filter (on_board v) mid ++ [r]) * 16 / IZR (v_pix (b_meta v))) (path_of powh v r).
Proof.
  intros powh v0 cs v pre q mid r post Hg H1 H2 H3 Hpx Hn Er Hq Hpre. pose proof (session_coords H1 H2 H3) as Hco.
  destruct (session_walked H1 H2 H3) as [E|(Hp & _ & Hw)]; [rewrite E in Er; destruct pre; discriminate|].
  destruct Hw as [[Hf _]|(p & q' & mid' & A1 & A2 & A3 & A4 & A5 & A6)].
  { exfalso. rewrite Er in Hf. apply Forall_app in Hf as [_ Hf]. inversion Hf; lia. }
  rewrite Er in A1. destruct (@split_at_open _ _ _ _ _ _ A1) as (-> & -> & Em); auto. symmetry in Em.
  specialize (A6 _ _ _ Em). unfold path_of. rewrite A6. cbn [filter]. rewrite A4. rewrite Er in Hco, Hn.
  apply Forall_app in Hco as [_ Hco]. inversion Hco as [|? ? Cq Hc']; subst. apply Forall_app in Hc' as [Cm Hc']. inversion Hc' as [|? ? Cr _]; subst.
  apply moves_close; [exact Hg|lia| |].
  - constructor; [exact Cq|]. apply Forall_app. split; [now apply filter_forall|]. constructor; [exact Cr|constructor].
  - cbn [app length]. rewrite !app_length in *. cbn [length] in *. rewrite app_length in Hn. cbn [length] in Hn.
    assert (Hfl : (length (filter (on_board v) mid) <= length mid)%nat) by (clear; induction mid as [|x m IH]; cbn; [lia|]; destruct (on_board v x); cbn; lia).
    lia.
Qed.
Print Assumptions C78_path_is_the_walk.

(** What [get_path] answers while a game is played and when it is over: the path of the last event. *)
Theorem C78_get_path : forall powh v0 cs v pre r,
  fresh_game v0 -> ok_session v0 cs -> vexec v0 cs = Ok v ->
  b_rec v = pre ++ [r] -> get_path powh v = Ok (path_of powh v r).
Proof.
  intros powh v0 cs v pre r H1 H2 H3 Er. pose proof (session_LI (fresh_LI H1) H2 H3) as HL.
  assert (Hnd : b_state v <> Display).
  { destruct HL as [I1 I2 I3 [(_ & _ & _ & w' & Eb)|(m & bs & d & L & _ & _ & Em & _)]].
    - rewrite I3, Eb. discriminate.
    - rewrite <- Em. destruct (logged_inv I1 I2 L) as (A & _). apply (i_nodisp A). }
  unfold get_path. rewrite Er, rev_app_distr. cbn [rev app]. destruct (b_state v); try reflexivity. congruence.
Qed.
Print Assumptions C78_get_path.

(** If no event after the opening leaves the board, the path never decreases. *)
Lemma path_step powh pix l d : good_root powh -> 0 < pix < 256 -> Forall small_move (l ++ [d]) -> Z.of_nat (length (l ++ [d])) <= 2 ^ 29 ->
  (val (path_f64 powh pix l) <= val (path_f64 powh pix (l ++ [d])))%R.
Proof.
  intros Hg Hp Hl Hn. pose proof Hl as Hl'. apply Forall_app in Hl' as [Hl1 Hd]. inversion Hd as [|? ? Hd' _]; subst.
  assert (N1 : near (5 + length l) (hsum pix l) (path_f64 powh pix l)) by (apply path_near; auto; rewrite app_length in Hn; cbn [length] in Hn; lia).
  pose proof (hop_near Hg Hp Hd') as N2. pose proof (path_near Hg Hp Hl Hn) as N3.
  unfold path_f64 in *. rewrite fold_left_app in *. cbn [fold_left] in *.
  set (x := fold_left (fun p e => b64_plus mode_NE p (hop_f64 powh pix e)) l (f64_of_Z 0)) in *.
  pose proof (Bplus_correct 53 1024 (eq_refl : (0 < 53)%Z) (eq_refl : (53 < 1024)%Z) binop_nan_pl64 mode_NE x (hop_f64 powh pix d) (nr_fin N1) (nr_fin N2)) as HD.
  change (round_mode mode_NE) with ZnearestE in HD. pose proof (nr_pos N2) as P2. pose proof (nr_fin N3) as F3.
  destruct (Rlt_bool_spec (Rabs (rnd (val x + val (hop_f64 powh pix d)))) (bpow radix2 1024)) as [Hlt|Hge].
  - destruct HD as (V & _). change (b64_plus mode_NE x (hop_f64 powh pix d)) with (Bplus 53 1024 eq_refl eq_refl binop_nan_pl64 mode_NE x (hop_f64 powh pix d)). rewrite V.
    rewrite <- (round_generic radix2 (SpecFloat.fexp 53 1024) ZnearestE (val x)) at 1 by apply generic_format_B2R.
    apply round_le; [apply fexp_correct; reflexivity|apply valid_rnd_N|lra].
  - exfalso. destruct HD as (V & _). change (b64_plus mode_NE x (hop_f64 powh pix d)) with (Bplus 53 1024 eq_refl eq_refl binop_nan_pl64 mode_NE x (hop_f64 powh pix d)) in F3.
    destruct (Bplus 53 1024 eq_refl eq_refl binop_nan_pl64 mode_NE x (hop_f64 powh pix d)); cbn in V; try discriminate V; discriminate F3.
Qed.
Theorem C78_path_never_decreases_on_the_board : forall powh v0 cs v pre q mid r mid' r' post,
  good_root powh -> fresh_game v0 -> ok_session v0 cs -> vexec v0 cs = Ok v ->
  v_pix (b_meta v) < 256 -> Z.of_nat (length (b_rec v)) <= 2 ^ 29 ->
  b_rec v = pre ++ q :: mid ++ r :: mid' ++ r' :: post ->
  (2 <= r_useful q)%nat -> Forall (fun r => (r_useful r < 2)%nat) pre ->
  Forall (fun r => on_board v r = true) (mid ++ r :: mid') ->
  (val (path_of powh v r) <= val (path_of powh v r'))%R.
Proof.
  intros powh v0 cs v pre q mid r mid' r' post Hg H1 H2 H3 Hpx Hn Er Hq Hpre Hin. pose proof (session_coords H1 H2 H3) as Hco.
  destruct (session_walked H1 H2 H3) as [E|(Hp & _ & Hw)]; [rewrite E in Er; destruct pre; discriminate|].
  destruct Hw as [[Hf _]|(p & q' & mid0 & A1 & A2 & A3 & A4 & A5 & A6)].
  { exfalso. rewrite Er in Hf. apply Forall_app in Hf as [_ Hf]. inversion Hf; lia. }
  rewrite Er in A1. destruct (@split_at_open _ _ _ _ _ _ A1) as (-> & -> & Em); auto. symmetry in Em.
  pose proof (A6 _ _ _ Em) as Ar. assert (Em' : mid0 = (mid ++ r :: mid') ++ r' :: post) by (rewrite Em, <- app_assoc; reflexivity).
  pose proof (A6 _ _ _ Em') as Ar'. unfold path_of. rewrite Ar, Ar'. clear Ar Ar' A6 Em Em'.
  assert (Hall : forall l, Forall (fun r => on_board v r = true) l -> filter (on_board v) (q' :: l) = q' :: l).
  { intros l Hl. cbn [filter]. rewrite A4. f_equal. induction Hl as [|x l Hx _ IH]; cbn; [auto|]. now rewrite Hx, IH. }
  rewrite (Hall _ Hin). apply Forall_app in Hin as [Hin1 Hin2]. rewrite (Hall _ Hin1).
  rewrite Er in Hco, Hn. apply Forall_app in Hco as [_ Hco].
  assert (Hl : Z.of_nat (length (q' :: mid ++ r :: mid' ++ [r'])) <= 2 ^ 29).
  { cbn [length]. rewrite !app_length in *. cbn [length] in *. rewrite !app_length in *. cbn [length] in *. rewrite app_length in *. cbn [length] in *. lia. }
  assert (Hc : Forall (fun r => 0 <= r_x r < 65536 /\ 0 <= r_y r < 65536) ((q' :: mid ++ [r]) ++ mid' ++ [r'])).
  { rewrite Forall_forall in *. intros x Hx. apply Hco. cbn [app In] in *. rewrite !in_app_iff in *. cbn [In] in *. rewrite !in_app_iff in *. cbn [In] in *. tauto. }
  replace (q' :: mid ++ r :: mid') with ((q' :: mid ++ [r]) ++ mid') by (cbn; rewrite <- app_assoc; reflexivity).
  rewrite <- !app_assoc. change ((q' :: mid) ++ [r]) with (q' :: mid ++ [r]).
  replace (q' :: mid ++ r :: mid' ++ [r']) with ((q' :: mid ++ [r]) ++ mid' ++ [r']) in Hl by (cbn; rewrite <- app_assoc; reflexivity).
  set (l0 := q' :: mid) in *. change (q' :: mid ++ [r]) with (l0 ++ [r]) in *.
  generalize (mid' ++ [r']) Hl Hc. clear - Hg Hp Hpx. intros l. induction l as [|x l IH] using rev_ind; intros Hl Hc; [rewrite app_nil_r; lra|].
  rewrite app_assoc in *. apply Rle_trans with (val (path_f64 powh (v_pix (b_meta v)) (moves ((l0 ++ [r]) ++ l)))).
  - apply IH; [rewrite app_length in Hl; lia|]. apply Forall_app in Hc as [Hc _]. exact Hc.
  - destruct (@exists_last _ ((l0 ++ [r]) ++ l)) as (k & y & Ek); [destruct l0; discriminate|]. rewrite Ek in *. rewrite <- app_assoc in *. cbn [app] in *.
    pose proof (moves_snoc k y x) as Es. pose proof (small_moves Hc) as Hs. assert (Hm : Z.of_nat (length (moves (k ++ [y; x]))) <= 2 ^ 29) by (rewrite moves_length; lia).
    rewrite Es in *. apply path_step; auto.
Qed.
Print Assumptions C78_path_never_decreases_on_the_board.

(** In the replay of a saved game whose events are all on the board, the walk starts one event earlier:
    at [r0], the event before the opening click [q] (its press). *)
Theorem C78_replay_path : forall powh v0 cs v (has_checksum : bool) raw now f w pre q post,
  good_root powh -> fresh_game v0 -> ok_session v0 cs -> vexec v0 cs = Ok v -> over (b_state v) ->
  v_pix (b_meta v) < 256 -> Z.of_nat (length (b_rec v)) <= 2 ^ 28 ->
  fits (saved_video v) -> length (v_checksum (b_meta v)) = 32%nat ->
  generate_evf (saved_video v) has_checksum = Ok raw ->
  fst (parse_video raw 0%nat) = Ok f -> analyse (of_file f raw now) = Ok w ->
  Forall (fun r => on_board v r = true) (b_rec v) ->
  b_rec v = pre ++ q :: post -> (2 <= r_useful q)%nat -> Forall (fun r => (r_useful r < 2)%nat) pre ->
  exists pre' r0 w1 w2, pre = pre' ++ [r0] /\ b_rec w = w1 ++ w2 /\ length w1 = length pre /\
    Forall (fun r => path_of powh v r = f64_of_Z 0) w1 /\
    forall mid r post' s, q :: post = mid ++ r :: post' -> nth_error w2 (length mid) = Some s ->
      close (walk (r0 :: mid ++ [r]) * 16 / IZR (v_pix (b_meta v))) (path_of powh v s).
Proof.
  intros powh v0 cs v hc raw now f w pre q post Hg H1 H2 H3 H4 Hpx Hn H5 H6 H7 E1 E2 Hin Er Hq Hpre.
  pose proof (session_coords H1 H2 H3) as Hco. destruct (session_walked H1 H2 H3) as [E|(Hp & _ & Hw)]; [rewrite E in Er; destruct pre; discriminate|].
  destruct Hw as [[Hf _]|(p & q' & mid0 & A1 & A2 & A3 & A4 & A5 & A6)].
  { exfalso. rewrite Er in Hf. apply Forall_app in Hf as [_ Hf]. inversion Hf; lia. }
  pose proof A1 as A1'. rewrite Er in A1. destruct (@split_at_open _ _ _ _ _ _ A1) as (<- & <- & <-); auto.
  destruct (@C58_path_differs_by_the_opening_click v0 cs v hc raw now f w H1 H2 H3 H4 H5 H6 H7 E1 E2) as (pre' & r0 & r1 & post1 & B1 & B2 & B3 & B4 & B5).
  { rewrite Forall_forall in *. intros x Hx. specialize (Hin x Hx). unfold on_board in Hin. lia. }
  assert (Hr1 : (2 <= r_useful r1)%nat).
  { destruct B5 as [B5|B5]; [exact B5|]. subst post1. rewrite Er in B1. change (pre' ++ [r0; r1]) with (pre' ++ [r0] ++ [r1]) in B1. rewrite app_assoc in B1.
    assert (Hi : In q ((pre' ++ [r0]) ++ [r1])) by (rewrite <- B1; apply in_or_app; right; now left).
    apply in_app_or in Hi as [Hi|[Hi|[]]]; [|now subst r1]. rewrite Forall_forall in B4. specialize (B4 _ Hi). lia. }
  pose proof B1 as B1'. rewrite Er in B1'. change (pre' ++ r0 :: r1 :: post1) with (pre' ++ [r0] ++ r1 :: post1) in B1'. rewrite app_assoc in B1'.
  destruct (@split_at_open _ _ _ _ _ _ B1') as (-> & <- & <-); auto. clear B1 B1' B5.
  set (k := length (pre' ++ [r0])) in *. pose proof (f_equal (firstn k) B3) as F1. pose proof (f_equal (skipn k) B3) as F2.
  assert (Lk : length (map (fun _ : rec => @nil (Z * Z)) (pre' ++ [r0])) = k) by (now rewrite map_length).
  set (zs := map (fun _ : rec => @nil (Z * Z)) (pre' ++ [r0])) in *.
  assert (Z1 : firstn k zs = zs) by (rewrite <- Lk; apply firstn_all). assert (Z2 : skipn k zs = []) by (rewrite <- Lk; apply skipn_all).
  rewrite firstn_map, firstn_app, Lk, Nat.sub_diag, firstn_O, app_nil_r, Z1 in F1.
  rewrite skipn_map, skipn_app, Lk, Nat.sub_diag, Z2 in F2. cbn [skipn app] in F2.
  exists pre', r0, (firstn k (b_rec w)), (skipn k (b_rec w)). split; [reflexivity|]. split; [now rewrite firstn_skipn|].
  split; [rewrite <- (map_length r_hops), F1; exact Lk|]. split.
  - rewrite Forall_forall. intros x Hx. apply (in_map r_hops) in Hx. rewrite F1 in Hx. apply in_map_iff in Hx as (? & Hx & _). unfold path_of. now rewrite <- Hx.
  - intros mid r post' s Es Hs. apply (map_nth_error r_hops) in Hs. rewrite F2, Es, map_app in Hs. cbn [map] in Hs.
    rewrite nth_error_app2 in Hs by (rewrite map_length; lia). rewrite map_length, Nat.sub_diag in Hs. cbn [nth_error] in Hs. injection Hs as Hs.
    assert (Hr : r_hops r = moves (mid ++ [r])).
    { destruct mid as [|x mid]; cbn [app] in Es.
      - injection Es as <- <-. rewrite !map_app in A5. cbn [map] in A5. apply app_inj_tail in A5 as [_ A5]. rewrite A5. reflexivity.
      - injection Es as <- Es. rewrite (A6 _ _ _ Es). f_equal. f_equal. rewrite Er, Es in Hin. apply Forall_app in Hin as [_ Hin]. change (q :: mid ++ r :: post') with ((q :: mid) ++ r :: post') in Hin.
        apply Forall_app in Hin as [Hin _]. clear - Hin. induction Hin as [|y l Hy _ IH]; cbn; [reflexivity|]. now rewrite Hy, IH. }
    unfold path_of. rewrite <- Hs, Hr. destruct (mid ++ [r]) as [|y l] eqn:El; [destruct mid; discriminate|].
    assert (Hy : y = q) by (destruct mid as [|x mid]; cbn in *; congruence). subst y.
    change ((r_y q - r_y r0, r_x q - r_x r0) :: moves (q :: l)) with (moves (r0 :: q :: l)).
    rewrite Er, Es in Hco. assert (Hcr : Forall (fun r => 0 <= r_x r < 65536 /\ 0 <= r_y r < 65536) (r0 :: q :: l)).
    { rewrite <- El. rewrite Forall_forall in *. intros x Hx. apply Hco. cbn [In] in Hx. rewrite !in_app_iff in *. cbn [In] in *. tauto. }
    apply moves_close; auto. rewrite Er, Es in Hn. rewrite <- El. cbn [length]. rewrite !app_length in *. cbn [length] in *. lia.
Qed.
Print Assumptions C78_replay_path.

(** ** Concrete cases, with the correctly rounded square root *)
Definition root : binary64 -> binary64 := b64_sqrt mode_NE.
Lemma root_good : good_root root.
Proof. intros N HN. apply near_mono with 1%nat; [lia|]. apply dist_near. lia. Qed.

(** The hypotheses of the theorems above hold for the game of C58; its path at the end. *)
Example C78_case : good_root root /\ fresh_game replay_game /\ ok_session replay_game replay_session /\
  vexec replay_game replay_session = Ok replay_done /\ v_pix (b_meta replay_done) < 256 /\
  Forall (fun r => on_board replay_done r = true) (b_rec replay_done) /\
  map r_useful (b_rec replay_done) = [1; 0; 0; 2; 0; 1; 0; 0; 2; 1; 0; 0; 2]%nat.
Proof.
  split; [exact root_good|]. destruct C58_C59_case as (raw & pre & r0 & mid & r1 & _ & Hf & Hok & He & _). split; [exact Hf|]. split; [exact Hok|]. split; [exact He|].
  split; [reflexivity|]. split; [|vm_compute; reflexivity]. apply Forall_forall. intros x Hx. vm_compute in Hx. repeat (destruct Hx as [<-|Hx]; [vm_compute; reflexivity|]). destruct Hx.
Qed.

(** A pointer that leaves a 3 x 3 board (48 x 48 pixels) and comes back to where it was. *)
Definition wander_session : list vcall :=
  [at_ms 1000 e_lc (8, 24)%nat; at_ms 1100 e_lr (8, 24)%nat; at_ms 1200 e_mv (8, 200)%nat; at_ms 1300 e_mv (8, 24)%nat;
   at_ms 1400 e_lc (8, 8)%nat; at_ms 1500 e_lr (8, 8)%nat].
Definition wander_done : bv := Eval vm_compute in game_or (vexec replay_game wander_session).
Definition same (p : binary64) (n : Z) : Prop := bits_of_b64 p = bits_of_b64 (f64_of_Z n).
(** While the pointer is outside, the path grows by 176; when it is back on the board the path has
    shrunk to what it was, although the pointer moved 352 pixels. In the replay of the saved game the
    same events show other paths: there a position counts as outside only if it is both below and to
    the right of the board, and nothing is skipped. *)
Theorem C78_refuted : fresh_game replay_game /\ ok_session replay_game wander_session /\
  vexec replay_game wander_session = Ok wander_done /\ b_state wander_done = Win /\
  map (fun r => (r_y r, r_x r)) (b_rec wander_done) = [(8, 24); (8, 24); (8, 200); (8, 24); (8, 8); (8, 8)] /\
  Forall2 (fun r n => same (path_of root wander_done r) n) (b_rec wander_done) [0; 0; 176; 0; 16; 16] /\
  match replay_of wander_done with
  | Ok w => map r_mouse (b_rec w) = map r_mouse (b_rec wander_done) /\
      Forall2 (fun r n => same (path_of root w r) n) (b_rec w) [0; 0; 176; 352; 368; 368] /\
      match set_current_event_id w 3 with
      | Ok (w', _) => match get_path root w' with Ok p => same p 352 | _ => False end
      | _ => False
      end
  | _ => False
  end.
Proof.
  destruct C58_C59_case as (raw & pre & r0 & mid & r1 & _ & Hf & _). split; [exact Hf|]. clear.
  split; [apply ok_sessionb_ok; vm_compute; reflexivity|]. split; [vm_compute; reflexivity|]. split; [reflexivity|]. split; [reflexivity|].
  assert (F2 : forall v l ns, map (fun r => bits_of_b64 (path_of root v r)) l = map (fun n => bits_of_b64 (f64_of_Z n)) ns ->
     Forall2 (fun r n => same (path_of root v r) n) l ns).
  { intros v l. induction l as [|x l IH]; intros [|n ns] E; try discriminate; constructor; cbn in E; injection E; auto. }
  split; [apply F2; vm_compute; reflexivity|].
  assert (B : match replay_of wander_done with
  | Ok w => map r_mouse (b_rec w) = map r_mouse (b_rec wander_done) /\
      map (fun r => bits_of_b64 (path_of root w r)) (b_rec w) = map (fun n => bits_of_b64 (f64_of_Z n)) [0; 0; 176; 352; 368; 368] /\
      match set_current_event_id w 3 with
      | Ok (w', _) => match get_path root w' with Ok p => same p 352 | _ => False end
      | _ => False
      end
  | _ => False
  end).
  { vm_compute. auto. }
  destruct (replay_of wander_done) as [w|e| |]; auto. destruct B as (B1 & B2 & B3). auto.
Qed.
Print Assumptions C78_refuted.
