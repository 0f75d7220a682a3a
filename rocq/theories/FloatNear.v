(** * FloatNear: relative errors of f64 products, quotients and sums (lemmas for C33 and C46). *)
From Coq Require Import ZArith Reals Lia Lra Bool List.
From Flocq Require Import Core Relative IEEE754.BinarySingleNaN IEEE754.Binary IEEE754.Bits.
From Verif Require Import FloatTime FloatQuot FloatTrace BigNum.
Open Scope R_scope.
Local Notation fexp := (SpecFloat.fexp 53 1024).
Local Notation rnd := (round radix2 fexp ZnearestE).
Local Notation val := (B2R 53 1024).

(** ** accumulated errors *)
Lemma w_lin n : (Z.of_nat n <= 2 ^ 40)%Z -> w ^ n <= 1 + INR n * bpow radix2 (-51) /\ w ^ n <= 1 + / 2048.
Proof.
  intros H. set (u := bpow radix2 (-52)). assert (Hu : 0 < u) by apply bpow_gt_0.
  replace (bpow radix2 (-51)) with (2 * u) by (unfold u; simpl; lra).
  assert (Hn0 : 0 <= INR n) by apply pos_INR.
  assert (Hnu : INR n * u <= / 4096).
  { rewrite INR_IZR_INZ. apply Rle_trans with (IZR (2 ^ 40) * u); [apply Rmult_le_compat_r; [lra|now apply IZR_le]|]. unfold u. rewrite <- bpow_2 by lia. rewrite <- bpow_plus.
    change (40 + -52)%Z with (-12)%Z. simpl. lra. }
  assert (B : forall k, 1 - INR k * u <= (1 - u) ^ k).
  { assert (Hu1 : u <= 1) by (apply (bpow_le radix2 (-52) 0); lia). induction k as [|k IH]; [cbn; lra|]. rewrite S_INR. cbn [pow]. assert (0 <= INR k) by apply pos_INR.
    assert (P : 0 <= (1 - u) ^ k <= 1) by (split; [apply pow_le; lra|apply Rle_trans with (1 ^ k); [apply pow_incr; lra|rewrite pow1; lra]]). nra. }
  specialize (B n).
  assert (P : w ^ n * (1 - u) ^ n <= 1).
  { rewrite <- Rpow_mult_distr. apply Rle_trans with (1 ^ n); [|rewrite pow1; lra]. apply pow_incr. unfold w. fold u. assert (Hu1 : u <= 1) by (apply (bpow_le radix2 (-52) 0); lia). nra. }
  pose proof (w_pow n) as W1. assert (Q : w ^ n * (1 - INR n * u) <= 1) by nra. assert (0 <= INR n * u) by nra.
  set (y := INR n * u) in *. assert (E : w ^ n <= 1 + 2 * y) by nra. split; [replace (INR n * (2 * u)) with (2 * y) by (unfold y; ring); auto|nra].
Qed.

(** the range in which roundings are relative *)
Definition sized (a : R) : Prop := (a = 0 \/ bpow radix2 (-1015) <= a) /\ a <= bpow radix2 1015.

Lemma rounded k A t (z : binary64) : 0 <= t -> A <= t * w ^ k -> t <= A * w ^ k -> sized A -> w ^ k <= 2 ->
  (rnd t < bpow radix2 1024 -> val z = rnd t /\ is_finite 53 1024 z = true /\ Bsign 53 1024 z = false) -> near (S k) A z /\ val z = rnd t.
Proof.
  intros T0 T1 T2 [HA HB] Hw Hz. pose proof (w_pow k) as W1. pose proof w_gt as W. 
  assert (Tt : t = 0 \/ bpow radix2 (-1022) <= t).
  { destruct HA as [->|HA]; [left; nra|right]. apply Rle_trans with (bpow radix2 (-1016)); [apply bpow_le; lia|].
    assert (E : bpow radix2 (-1015) = 2 * bpow radix2 (-1016)) by (change 2 with (bpow radix2 1); rewrite <- bpow_plus; reflexivity). nra. }
  destruct (rnd_near T0 Tt) as (R0 & R1 & R2).
  assert (W2 : w <= 2). { unfold w. assert (bpow radix2 (-52) <= 1) by (apply (bpow_le radix2 (-52) 0); lia). lra. }
  destruct Hz as (V & F & B).
  { apply Rle_lt_trans with (4 * bpow radix2 1015).
    - pose proof (bpow_gt_0 radix2 1015). assert (t <= 2 * bpow radix2 1015).
      { assert (0 <= A) by (destruct HA as [->|HA]; [lra|]; pose proof (bpow_gt_0 radix2 (-1015)); lra). nra. }
      nra.
    - replace 4 with (bpow radix2 2) by (simpl; lra). rewrite <- bpow_plus. apply bpow_lt. lia. }
  split; [|exact V]. constructor; auto; rewrite V; auto; cbn [pow]; nra.
Qed.
Lemma rnd_ge1 t : 1 <= t -> 1 <= rnd t.
Proof.
  intros H. rewrite <- (@int_exact 1) at 1 by lia. apply round_le; [apply FLT_exp_valid; reflexivity|apply valid_rnd_N|exact H].
Qed.

Lemma mult_near n m a b x y : near n a x -> near m b y -> sized (a * b) -> w ^ (n + m) <= 2 -> near (S (n + m)) (a * b) (fmul x y) /\ val (fmul x y) = rnd (val x * val y).
Proof.
  intros Hx Hy Hs Hw. pose proof (near_pos Hx). pose proof (near_pos Hy). pose proof (nr_pos Hx). pose proof (nr_pos Hy).
  pose proof (w_pow n). pose proof (w_pow m).
  apply rounded with (t := val x * val y); auto.
  - nra.
  - rewrite pow_add. replace (val x * val y * (w ^ n * w ^ m)) with ((val x * w ^ n) * (val y * w ^ m)) by ring. apply Rmult_le_compat; auto; [apply (nr_lo Hx)|apply (nr_lo Hy)].
  - rewrite pow_add. replace (a * b * (w ^ n * w ^ m)) with ((a * w ^ n) * (b * w ^ m)) by ring. apply Rmult_le_compat; auto; [apply (nr_hi Hx)|apply (nr_hi Hy)].
  - intros Ho. pose proof (Bmult_correct 53 1024 (eq_refl : (0 < 53)%Z) (eq_refl : (53 < 1024)%Z) binop_nan_pl64 mode_NE x y) as HD.
    change (round_mode mode_NE) with ZnearestE in HD. 
    rewrite Rlt_bool_true in HD.
    2:{ rewrite Rabs_pos_eq; auto. rewrite <- (round_0 radix2 fexp ZnearestE). apply round_le; [apply FLT_exp_valid; reflexivity|apply valid_rnd_N|nra]. }
    destruct HD as (V & F & B). change (Bmult 53 1024 eq_refl eq_refl binop_nan_pl64 mode_NE x y) with (fmul x y) in *.
    rewrite (nr_fin Hx), (nr_fin Hy) in F. split; [exact V|]. split; [exact F|]. rewrite B; [now rewrite (nr_sign Hx), (nr_sign Hy)|].
    destruct (fmul x y); try reflexivity; discriminate F.
Qed.
Lemma quot_near n m a b x y : near n a x -> near m b y -> 0 < b -> sized (a / b) -> w ^ (n + m) <= 2 -> near (S (n + m)) (a / b) (fdiv x y) /\ val (fdiv x y) = rnd (val x / val y).
Proof.
  intros Hx Hy Hb Hs Hw. pose proof (near_pos Hx) as Ha. pose proof (nr_pos Hx) as X0. pose proof (nr_pos Hy) as Y0.
  pose proof (w_pow n) as Wn. pose proof (w_pow m) as Wm. pose proof (nr_lo Hx) as XL. pose proof (nr_hi Hx) as XH. pose proof (nr_lo Hy) as YL. pose proof (nr_hi Hy) as YH.
  assert (Yp : 0 < val y) by nra.
  assert (T0 : 0 <= val x / val y) by (unfold Rdiv; apply Rmult_le_pos; auto; left; now apply Rinv_0_lt_compat).
  assert (Q0 : 0 <= a / b) by (unfold Rdiv; apply Rmult_le_pos; auto; left; now apply Rinv_0_lt_compat).
  assert (Et : val x / val y * val y = val x) by (field; lra). assert (Eq : a / b * b = a) by (field; lra).
  apply rounded with (t := val x / val y); auto.
  - rewrite pow_add. apply Rmult_le_reg_r with b; auto. rewrite Eq. apply Rle_trans with (1 := XL).
    replace (val x / val y * (w ^ n * w ^ m) * b) with (val x / val y * w ^ n * (b * w ^ m)) by ring. replace (val x * w ^ n) with (val x / val y * w ^ n * val y) by (field; lra).
    apply Rmult_le_compat_l; [nra|lra].
  - rewrite pow_add. apply Rmult_le_reg_r with (val y); auto. rewrite Et. apply Rle_trans with (1 := XH).
    replace (a / b * (w ^ n * w ^ m) * val y) with (a / b * w ^ n * (val y * w ^ m)) by ring. replace (a * w ^ n) with (a / b * w ^ n * b) by (field; lra).
    apply Rmult_le_compat_l; [nra|lra].
  - intros Ho. pose proof (Bdiv_correct 53 1024 (eq_refl : (0 < 53)%Z) (eq_refl : (53 < 1024)%Z) binop_nan_pl64 mode_NE x y ltac:(lra)) as HD.
    change (round_mode mode_NE) with ZnearestE in HD. 
    rewrite Rlt_bool_true in HD.
    2:{ rewrite Rabs_pos_eq; auto. rewrite <- (round_0 radix2 fexp ZnearestE). apply round_le; [apply FLT_exp_valid; reflexivity|apply valid_rnd_N|auto]. }
    destruct HD as (V & F & B). change (Bdiv 53 1024 eq_refl eq_refl binop_nan_pl64 mode_NE x y) with (fdiv x y) in *.
    rewrite (nr_fin Hx) in F. split; [exact V|]. split; [exact F|]. rewrite B; [now rewrite (nr_sign Hx), (nr_sign Hy)|].
    destruct (fdiv x y); try reflexivity; discriminate F.
Qed.
Lemma sum_near n a b x y : near n a x -> near n b y -> sized (a + b) -> w ^ n <= 2 -> near (S n) (a + b) (fadd x y) /\ val (fadd x y) = rnd (val x + val y).
Proof.
  intros Hx Hy Hs Hw. pose proof (near_pos Hx). pose proof (near_pos Hy). pose proof (nr_pos Hx). pose proof (nr_pos Hy). pose proof (w_pow n).
  pose proof (nr_lo Hx). pose proof (nr_lo Hy). pose proof (nr_hi Hx). pose proof (nr_hi Hy).
  apply rounded with (t := val x + val y); auto; try lra.
  intros Ho. pose proof (Bplus_correct 53 1024 (eq_refl : (0 < 53)%Z) (eq_refl : (53 < 1024)%Z) binop_nan_pl64 mode_NE x y (nr_fin Hx) (nr_fin Hy)) as HD.
  change (round_mode mode_NE) with ZnearestE in HD.
  rewrite Rlt_bool_true in HD.
  2:{ rewrite Rabs_pos_eq; auto. rewrite <- (round_0 radix2 fexp ZnearestE). apply round_le; [apply FLT_exp_valid; reflexivity|apply valid_rnd_N|lra]. }
  destruct HD as (V & F & B). change (Bplus 53 1024 eq_refl eq_refl binop_nan_pl64 mode_NE x y) with (fadd x y) in *.
  split; [exact V|]. split; [exact F|]. rewrite B. destruct (Rcompare_spec (val x + val y) 0); [lra| |reflexivity]. rewrite (nr_sign Hx), (nr_sign Hy). reflexivity.
Qed.

(** ** whole numbers *)
Lemma of_Z_near n : (0 <= n < 2 ^ 1000)%Z -> near 1 (IZR n) (f64_of_Z n) /\ val (f64_of_Z n) = rnd (IZR n).
Proof.
  intros H. assert (H0 : 0 <= IZR n) by (apply IZR_le; lia).
  assert (Hs : sized (IZR n)).
  { split.
    - destruct (Z.eq_dec n 0) as [->|]; [now left|right]. apply Rle_trans with (bpow radix2 0); [apply bpow_le; lia|]. simpl. apply IZR_le. lia.
    - apply Rle_trans with (bpow radix2 1000); [|apply bpow_le; lia]. rewrite bpow_2 by lia. apply IZR_le. lia. }
  apply (@rounded 0 (IZR n) (IZR n)); auto; cbn [pow]; try lra.
  intros Ho. pose proof (binary_normalize_correct 53 1024 (eq_refl : (0 < 53)%Z) (eq_refl : (53 < 1024)%Z) mode_NE n 0 false) as HD.
  assert (E : @F2R radix2 {| Fnum := n; Fexp := 0 |} = IZR n) by (unfold F2R; cbn; ring). rewrite E in HD.
  change (round_mode mode_NE) with ZnearestE in HD. rewrite Rlt_bool_true in HD.
  2:{ rewrite Rabs_pos_eq; auto. rewrite <- (round_0 radix2 fexp ZnearestE). apply round_le; [apply FLT_exp_valid; reflexivity|apply valid_rnd_N|auto]. }
  destruct HD as (V & F & B). split; [exact V|]. split; [exact F|]. unfold f64_of_Z. rewrite B. destruct (Rcompare_spec (IZR n) 0); [lra| |]; reflexivity.
Qed.
Lemma exact_near n : (0 <= n < 2 ^ 53)%Z -> near 0 (IZR n) (f64_of_Z n) /\ val (f64_of_Z n) = IZR n.
Proof.
  intros H. destruct (f64_of_Z_ok n) as [V F]; [lia|]. split; [|exact V].
  destruct (@of_Z_near n) as [N _]. { split; [lia|]. apply Z.lt_trans with (2 ^ 53)%Z; [lia|]. apply Z.pow_lt_mono_r; lia. }
  constructor; [exact F|exact (nr_sign N)|exact (nr_pos N)| |]; rewrite V; cbn [pow]; lra.
Qed.
Lemma lt_finite (a b : binary64) : is_finite 53 1024 a = true -> is_finite 53 1024 b = true -> f_lt a b = true <-> val a < val b.
Proof.
  intros Fa Fb. unfold f_lt, b64_compare. rewrite (Bcompare_correct 53 1024 a b Fa Fb). destruct (Rcompare_spec (val a) (val b)); split; intros X; try lra; try discriminate X; auto.
Qed.
Lemma ge_finite (a b : binary64) : is_finite 53 1024 a = true -> is_finite 53 1024 b = true -> f_ge a b = true <-> val b <= val a.
Proof.
  intros Fa Fb. unfold f_ge, b64_compare. rewrite (Bcompare_correct 53 1024 a b Fa Fb). destruct (Rcompare_spec (val a) (val b)); split; intros X; try lra; try discriminate X; auto.
Qed.
Lemma ten_ok : near 0 10 f_ten /\ val f_ten = 10.
Proof. apply exact_near. lia. Qed.
Definition radix10 : radix := Build_radix 10 eq_refl.
Definition p10 (b : Z) : R := bpow radix10 b.
Lemma p10_S b : p10 (b + 1) = 10 * p10 b.
Proof. unfold p10. rewrite bpow_plus. change (bpow radix10 1) with 10. ring. Qed.
Lemma p10_pos b : 0 < p10 b. Proof. apply bpow_gt_0. Qed.
Lemma p10_le a b : (a <= b)%Z -> p10 a <= p10 b. Proof. intros. now apply bpow_le. Qed.
Lemma p10_lt_inv a b : p10 a < p10 b -> (a < b)%Z. Proof. apply lt_bpow. Qed.
Lemma p10_add a b : p10 (a + b) = p10 a * p10 b. Proof. apply bpow_plus. Qed.
Lemma p10_Z b : (0 <= b)%Z -> p10 b = IZR (10 ^ b). Proof. intros H. unfold p10. rewrite <- IZR_Zpower by auto. reflexivity. Qed.
Lemma p10_ge1 b : (0 <= b)%Z -> 1 <= p10 b. Proof. intros H. change 1 with (bpow radix10 0). now apply bpow_le. Qed.
Lemma p10_inv b : p10 b * p10 (- b) = 1. Proof. unfold p10. rewrite <- bpow_plus. replace (b + - b)%Z with 0%Z by lia. reflexivity. Qed.
Lemma p10_300 : p10 300 <= bpow radix2 1000.
Proof. rewrite p10_Z, bpow_2 by lia. apply IZR_le. vm_compute. discriminate. Qed.
Lemma p10_m300 : bpow radix2 (-1000) <= p10 (-300).
Proof.
  pose proof p10_300 as H. pose proof (p10_inv 300) as E. change (- (300))%Z with (-300)%Z in E.
  assert (E2 : bpow radix2 1000 * bpow radix2 (-1000) = 1) by (rewrite <- bpow_plus; reflexivity).
  pose proof (p10_pos 300). pose proof (p10_pos (-300)). pose proof (bpow_gt_0 radix2 1000). pose proof (bpow_gt_0 radix2 (-1000)). nra.
Qed.
