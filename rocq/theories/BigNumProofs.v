(** * BigNumProofs: rounding errors of [BigNumber] (lemmas for C33 and C46). *)
From Coq Require Import ZArith Reals Lia Lra Bool List.
From Flocq Require Import Core Relative IEEE754.BinarySingleNaN IEEE754.Binary IEEE754.Bits.
From Verif Require Import Base LayMine FloatTime FloatQuot FloatTrace BigNum FloatNear.
Import ListNotations.
Open Scope R_scope.
Local Notation rnd := (round radix2 (SpecFloat.fexp 53 1024) ZnearestE).
Local Notation val := (B2R 53 1024).

(** [x] is the number [v] up to [M] roundings, and one more for every power of ten *)
Record stands (M : nat) (v : Rdefinitions.R) (x : big) : Prop := {
  sd_near : near (M + Z.to_nat (ex x)) (v / p10 (ex x)) (mant x);
  sd_ex : (0 <= ex x)%Z;
  sd_v : v = 0 \/ 1 <= v }.
Lemma stands_mono M M' v x : (M <= M')%nat -> stands M v x -> stands M' v x.
Proof. intros H [N E V]. constructor; auto. eapply near_mono; [|exact N]. lia. Qed.
Lemma v_nonneg v : v = 0 \/ 1 <= v -> 0 <= v. Proof. lra. Qed.
Lemma quot_pos v b : 0 <= v -> 0 <= v / p10 b.
Proof. intros. unfold Rdiv. apply Rmult_le_pos; auto. left. apply Rinv_0_lt_compat, p10_pos. Qed.
Lemma quot_S v b : v / p10 (b + 1) = v / p10 b / 10.
Proof. rewrite p10_S. pose proof (p10_pos b). field. lra. Qed.
Lemma quot_mul v b : v / p10 b * p10 b = v.
Proof. pose proof (p10_pos b). field. lra. Qed.

Definition fits (N : Z) : Prop := (N <= 2 ^ 40)%Z.
Lemma fits_w N : fits (Z.of_nat N) -> w ^ N <= 1 + / 2048. Proof. intros H. now apply w_lin. Qed.

(** a number whose decimal exponent is at most [D] *)
Lemma scale_ok D fuel : forall M v x, stands M v x -> v <= p10 D -> (0 <= D)%Z -> fits (Z.of_nat M + Z.max (ex x) D) ->
  val (mant x) < 10 * 5 ^ fuel -> val (mant x) <= bpow radix2 1000 ->
  exists y, scale fuel x = Ok y /\ stands M v y /\ val (mant y) < 10 /\ (ex x <= ex y <= Z.max (ex x) D)%Z /\
    (1 <= val (mant x) -> 1 <= val (mant y)) /\ (ex y = ex x \/ 1 <= val (mant y)).
Proof.
  induction fuel as [|fuel IH]; intros M v x Hx Hv HD HM Ha Hb; pose proof (sd_near Hx) as N; pose proof (sd_ex Hx) as He; pose proof (sd_v Hx) as Hvv;
    destruct ten_ok as [N10 V10]; cbn [scale]; pose proof (ge_finite (nr_fin N) (nr_fin N10)) as G; rewrite V10 in G; destruct (f_ge (mant x) f_ten).
  - exfalso. assert (10 <= val (mant x)) by now apply G. cbn [pow] in Ha. lra.
  - exists x. assert (~ 10 <= val (mant x)) by (intros X; apply G in X; discriminate X). split; [reflexivity|]. split; [auto|]. split; [lra|]. split; [lia|]. auto.
  - assert (Hge : 10 <= val (mant x)) by now apply G. clear G.
    assert (HN : fits (Z.of_nat (M + Z.to_nat (ex x)))) by (unfold fits in *; lia). pose proof (fits_w HN) as Hw. pose proof (w_pow (M + Z.to_nat (ex x))) as W1.
    set (A := v / p10 (ex x)) in *. pose proof (nr_lo N) as L. pose proof (nr_hi N) as U. pose proof (near_pos N) as A0.
    assert (A9 : 9 <= A) by nra.
    assert (AU : A <= bpow radix2 1001).
    { assert (E : bpow radix2 1001 = 2 * bpow radix2 1000) by (change 2 with (bpow radix2 1); rewrite <- bpow_plus; reflexivity). pose proof (bpow_gt_0 radix2 1000). nra. }
    assert (Hs : sized (A / 10)).
    { split; [right|].
      - apply Rle_trans with (bpow radix2 (-1)); [apply bpow_le; lia|]. simpl. lra.
      - apply Rle_trans with (bpow radix2 1001); [|apply bpow_le; lia]. lra. }
    destruct (quot_near N N10 ltac:(lra) Hs) as [Q QV]; [rewrite Nat.add_0_r; lra|]. rewrite Nat.add_0_r in Q.
    assert (Hex : (ex x + 1 <= D)%Z).
    { assert (X : p10 (ex x + 1) < p10 (D + 1)). { rewrite (p10_S D), p10_S. pose proof (p10_pos (ex x)). assert (v = A * p10 (ex x)) by (unfold A; now rewrite quot_mul). nra. }
      apply p10_lt_inv in X. lia. }
    set (x' := Big (fdiv (mant x) f_ten) (ex x + 1)).
    assert (Hx' : stands M v x').
    { constructor; auto; unfold x'; cbn [mant ex]; [|lia]. rewrite quot_S. fold A. replace (M + Z.to_nat (ex x + 1))%nat with (S (M + Z.to_nat (ex x))) by lia. exact Q. }
    assert (Hval : 1 <= val (fdiv (mant x) f_ten) <= val (mant x) / 5).
    { rewrite QV, V10. split; [apply rnd_ge1; lra|]. destruct (@rnd_near (val (mant x) / 10)) as (_ & _ & R2); [lra| |].
      - right. apply Rle_trans with (bpow radix2 0); [apply bpow_le; lia|]. simpl. lra.
      - assert (w <= 2). { unfold w. assert (bpow radix2 (-52) <= 1) by (apply (bpow_le radix2 (-52) 0); lia). lra. } nra. }
    destruct (IH M v x' Hx' Hv HD) as (y & E & Sy & Y1 & Y2 & Y3 & Y4).
    + unfold x'. cbn [ex]. unfold fits in *. lia.
    + unfold x'. cbn [mant]. cbn [pow] in Ha. lra.
    + unfold x'. cbn [mant]. lra.
    + exists y. cbn [mant ex x'] in Y2, Y3, Y4. unfold x' in Y2, Y3, Y4. cbn [mant ex] in Y2, Y3, Y4. split; [exact E|]. split; [exact Sy|]. split; [exact Y1|]. split; [lia|].
      assert (1 <= val (mant y)) by (apply Y3; lra). auto.
  - exists x. assert (~ 10 <= val (mant x)) by (intros X; apply G in X; discriminate X). split; [reflexivity|]. split; [auto|]. split; [lra|]. split; [lia|]. auto.
Qed.
Lemma pow5_400 : bpow radix2 900 <= 10 * 5 ^ 400.
Proof.
  rewrite bpow_2 by lia. rewrite (pow_IZR 5 400). replace (10 * IZR (5 ^ Z.of_nat 400)) with (IZR (10 * 5 ^ Z.of_nat 400)) by (now rewrite mult_IZR). apply IZR_le. vm_compute. discriminate.
Qed.
(** the same for the whole function; a threshold of at least 10 *)
Lemma smaller_ok D M v x thr : stands M v x -> v <= p10 D -> (0 <= D)%Z -> fits (Z.of_nat M + Z.max (ex x) D) -> val (mant x) < bpow radix2 900 ->
  is_finite 53 1024 thr = true -> 10 <= val thr ->
  exists y, become_smaller_than x thr = Ok y /\ stands M v y /\ val (mant y) < val thr /\ (ex x <= ex y <= Z.max (ex x) D)%Z /\
    (1 <= val (mant x) -> 1 <= val (mant y)) /\ (ex y = ex x \/ 1 <= val (mant y)).
Proof.
  intros Hx Hv HD HM Ha Ft Ht. unfold become_smaller_than. pose proof (lt_finite (nr_fin (sd_near Hx)) Ft) as G. destruct (f_lt (mant x) thr).
  - exists x. assert (val (mant x) < val thr) by now apply G. split; [reflexivity|]. split; [auto|]. split; [lra|]. split; [lia|]. auto.
  - destruct (@scale_ok D SCALE_FUEL M v x Hx Hv HD HM) as (y & E & Sy & Y1 & Y2 & Y3 & Y4).
    + unfold SCALE_FUEL. pose proof pow5_400. lra.
    + left. apply Rlt_le_trans with (1 := Ha). apply bpow_le. lia.
    + exists y. split; [exact E|]. split; [exact Sy|]. split; [lra|]. split; [lia|]. auto.
Qed.

(** ** numbers below 10^294 *)
Definition DD : Z := 294.
Definition EE : Z := 295.
Record holds (M : nat) (v : Rdefinitions.R) (x : big) : Prop := {
  hd_st : stands M v x;
  hd_lt : val (mant x) < 10;
  hd_ex : (ex x <= EE)%Z }.
Definition tight (x : big) : Prop := (ex x <= 1)%Z \/ 1 <= val (mant x).
Definition roomy (M : nat) : Prop := fits (Z.of_nat M + 10000).
Lemma holds_mono M M' v x : (M <= M')%nat -> holds M v x -> holds M' v x.
Proof. intros H [S L E]. constructor; auto. eapply stands_mono; eauto. Qed.

Lemma hd_range M v x : holds M v x -> roomy M -> (v / p10 (ex x) = 0 \/ p10 (- EE) <= v / p10 (ex x)) /\ 0 <= v / p10 (ex x) <= 11 /\ w ^ (M + Z.to_nat (ex x)) <= 1 + / 2048.
Proof.
  intros H HM. pose proof (hd_st H) as SX. pose proof (sd_near SX) as N. pose proof (sd_ex SX) as E0. pose proof (hd_ex H) as E1. pose proof (hd_lt H) as L.
  assert (Hw : w ^ (M + Z.to_nat (ex x)) <= 1 + / 2048). { apply fits_w. unfold roomy, fits, EE in *. lia. }
  pose proof (w_pow (M + Z.to_nat (ex x))) as W1. pose proof (nr_lo N) as NL. pose proof (near_pos N) as A0. pose proof (nr_pos N).
  split; [|split; [nra|exact Hw]].
  destruct (sd_v SX) as [->|V1]; [left; unfold Rdiv; ring|right].
  apply Rmult_le_reg_r with (p10 (ex x)); [apply p10_pos|]. rewrite quot_mul, <- p10_add. apply Rle_trans with (p10 0); [apply p10_le; lia|]. change (p10 0) with 1. exact V1.
Qed.
Lemma p10_sized : bpow radix2 (-1000) <= p10 (- EE).
Proof. apply Rle_trans with (1 := p10_m300). apply p10_le. unfold EE. lia. Qed.
Lemma small_pow2 k c : (Z.to_nat k <= 1000)%nat -> c <= IZR (2 ^ 10) -> c <= bpow radix2 900.
Proof. intros _ H. apply Rle_trans with (1 := H). rewrite <- bpow_2 by lia. apply bpow_le. lia. Qed.

Lemma zero_holds b : (0 <= b <= EE)%Z -> holds 0 0 (Big f_zero b).
Proof.
  intros Hb. destruct (@exact_near 0) as [N V]; [lia|]. constructor; cbn [mant ex]; [|change f_zero with (f64_of_Z 0); rewrite V; lra|lia].
  constructor; cbn [mant ex]; [|lia|now left]. replace (0 / p10 b) with 0 by (unfold Rdiv; ring). eapply near_mono; [|exact N]. lia.
Qed.
Lemma one_holds : holds 0 1 big_one /\ tight big_one.
Proof.
  destruct (@exact_near 1) as [N V]; [lia|]. split; [|right; unfold big_one, f_one; cbn [mant]; rewrite V; lra]. constructor; cbn [big_one mant ex]; [|change f_one with (f64_of_Z 1); rewrite V; lra|unfold EE; lia].
  constructor; cbn [big_one mant ex]; [|lia|right; lra]. replace (1 / p10 0) with 1 by (change (p10 0) with 1; field). exact N.
Qed.

Lemma mul_usize_0 x : mul_usize x 0 = Ok (Big f_zero 1). Proof. reflexivity. Qed.
Lemma mul_usize_ok M v x k : holds M v x -> roomy M -> (0 < k)%nat -> (Z.of_nat k < 2 ^ 64)%Z -> v * INR k <= p10 DD ->
  exists y, mul_usize x k = Ok y /\ holds (M + 2) (v * INR k) y /\ (tight x -> tight y).
Proof.
  intros H HM Hk Hk2 Hv. destruct (hd_range H HM) as (R1 & R2 & R3). pose proof (hd_st H) as SX. pose proof (sd_near SX) as N. pose proof (sd_ex SX) as E0. pose proof (hd_ex H) as E1.
  destruct (@of_Z_near (Z.of_nat k)) as [NK VK].
  { split; [lia|]. apply Z.lt_trans with (1 := Hk2). apply Z.pow_lt_mono_r; lia. }
  rewrite <- INR_IZR_INZ in NK, VK. assert (K1 : 1 <= INR k) by (apply (le_INR 1); lia).
  assert (K2 : INR k <= bpow radix2 64). { rewrite INR_IZR_INZ, bpow_2 by lia. apply IZR_le. lia. }
  set (A := v / p10 (ex x)) in *.
  assert (P1 : A * INR k <= bpow radix2 68).
  { assert (E : bpow radix2 68 = 16 * bpow radix2 64) by (replace 16 with (bpow radix2 4) by (simpl; lra); rewrite <- bpow_plus; reflexivity). pose proof (bpow_gt_0 radix2 64). nra. }
  assert (Hs : sized (A * INR k)).
  { split.
    - destruct R1 as [->|R1]; [left; ring|right]. pose proof p10_sized. pose proof (bpow_gt_0 radix2 (-1015)). assert (bpow radix2 (-1015) <= bpow radix2 (-1000)) by (apply bpow_le; lia). nra.
    - apply Rle_trans with (1 := P1). apply bpow_le. lia. }
  assert (W2 : w ^ (M + Z.to_nat (ex x) + 1) <= 2).
  { apply Rle_trans with (1 + / 2048); [|lra]. apply fits_w. unfold roomy, fits, EE in *. lia. }
  destruct (mult_near N NK Hs W2) as [Q QV].
  unfold mul_usize. destruct (Nat.eqb_spec k 0) as [|_]; [lia|]. set (x' := Big (fmul (mant x) (f_of k)) (ex x)).
  assert (Sx' : stands (M + 2) (v * INR k) x').
  { constructor; unfold x'; cbn [mant ex]; [|auto|].
    - replace (v * INR k / p10 (ex x)) with (A * INR k) by (unfold A; pose proof (p10_pos (ex x)); field; lra).
      replace (M + 2 + Z.to_nat (ex x))%nat with (S (M + Z.to_nat (ex x) + 1)) by lia. exact Q.
    - destruct (sd_v SX) as [->|V1]; [left; ring|right]. rewrite <- (Rmult_1_l 1). apply Rmult_le_compat; lra. }
  assert (L900 : val (mant x') < bpow radix2 900).
  { unfold x'. cbn [mant]. pose proof (nr_hi Q) as U. apply Rle_lt_trans with (bpow radix2 68 * 4).
    - assert (w ^ S (M + Z.to_nat (ex x) + 1) <= 4). { apply Rle_trans with (1 + / 2048); [|lra]. apply fits_w. unfold roomy, fits, EE in *. lia. }
      assert (P0 : 0 <= A * INR k) by (apply Rmult_le_pos; lra). apply Rle_trans with (1 := U). apply Rmult_le_compat; auto. apply pow_le. pose proof w_gt. lra.
    - replace 4 with (bpow radix2 2) by (simpl; lra). rewrite <- bpow_plus. apply bpow_lt. lia. }
  destruct ten_ok as [N10 V10].
  destruct (@smaller_ok DD (M + 2) (v * INR k) x' f_ten Sx' Hv) as (y & E & Sy & Y1 & Y2 & Y3 & Y4).
  - unfold DD. lia.
  - unfold x'. cbn [ex]. unfold roomy, fits, DD, EE in *. lia.
  - exact L900.
  - exact (nr_fin N10).
  - rewrite V10. lra.
  - exists y. split; [exact E|]. unfold x' in Y2, Y3, Y4. cbn [ex mant] in Y2, Y3, Y4. split.
    + constructor; auto; [now rewrite <- V10|unfold DD, EE in *; lia].
    + intros [T|T].
      * destruct Y4 as [E4|Y4]; [left; lia|now right].
      * right. apply Y3. unfold f_of. rewrite QV. apply rnd_ge1. rewrite VK. assert (1 <= rnd (INR k)) by now apply rnd_ge1. nra.
Qed.

Lemma mul_big_ok M1 v1 x M2 v2 k : holds M1 v1 x -> tight x -> holds M2 v2 k -> 1 <= val (mant k) -> roomy (M1 + M2) -> v2 <= p10 DD -> v1 * v2 <= p10 DD ->
  exists y, mul_big_number x k = Ok y /\ holds (M1 + M2 + 1) (v1 * v2) y.
Proof.
  intros H1 Tx H2 Hk HM Hv2 Hv. assert (HM1 : roomy M1) by (unfold roomy, fits in *; lia). assert (HM2 : roomy M2) by (unfold roomy, fits in *; lia).
  destruct (hd_range H1 HM1) as (R1 & R2 & R3). destruct (hd_range H2 HM2) as (S1 & S2 & S3).
  pose proof (hd_st H1) as X. pose proof (sd_near X) as N. pose proof (sd_ex X) as E0. pose proof (hd_ex H1) as E1.
  pose proof (hd_st H2) as Y. pose proof (sd_near Y) as N'. pose proof (sd_ex Y) as E0'. pose proof (hd_ex H2) as E1'.
  set (A := v1 / p10 (ex x)) in *. set (B := v2 / p10 (ex k)) in *.
  pose proof (nr_hi N') as U'. pose proof (w_pow (M2 + Z.to_nat (ex k))) as W2. assert (B1 : / 2 <= B) by nra.
  assert (EA : v1 = A * p10 (ex x)) by (unfold A; now rewrite quot_mul). assert (EB : v2 = B * p10 (ex k)) by (unfold B; now rewrite quot_mul).
  assert (Ek : (ex k <= DD)%Z).
  { assert (Z : p10 (ex k) < p10 (DD + 1)) by (rewrite p10_S; pose proof (p10_pos (ex k)); pose proof (p10_pos DD); nra). apply p10_lt_inv in Z. lia. }
  assert (Es : (ex x + ex k <= EE)%Z).
  { destruct Tx as [T|T]; [unfold DD, EE in *; lia|].
    pose proof (nr_hi N) as U. pose proof (w_pow (M1 + Z.to_nat (ex x))) as W1. assert (A1 : / 2 <= A) by nra.
    assert (Z : p10 (ex x + ex k) < p10 (DD + 1)).
    { rewrite p10_S, p10_add. pose proof (p10_pos (ex x)) as P1. pose proof (p10_pos (ex k)) as P2. pose proof (p10_pos DD).
      assert (v1 * v2 = A * B * (p10 (ex x) * p10 (ex k))) by (rewrite EA, EB at 1; ring). assert (/ 4 <= A * B) by nra. assert (0 < p10 (ex x) * p10 (ex k)) by nra. nra. }
    apply p10_lt_inv in Z. unfold EE, DD in *. lia. }
  assert (Hs : sized (A * B)).
  { split.
    - destruct R1 as [->|R1]; [left; ring|right]. pose proof p10_sized. apply Rle_trans with (bpow radix2 (-1001)); [apply bpow_le; lia|].
      assert (E : bpow radix2 (-1000) = 2 * bpow radix2 (-1001)) by (change 2 with (bpow radix2 1); rewrite <- bpow_plus; reflexivity). pose proof (bpow_gt_0 radix2 (-1001)). nra.
    - apply Rle_trans with (bpow radix2 10); [simpl; nra|]. apply bpow_le. lia. }
  assert (W3 : w ^ (M1 + Z.to_nat (ex x) + (M2 + Z.to_nat (ex k))) <= 2).
  { apply Rle_trans with (1 + / 2048); [|lra]. apply fits_w. unfold roomy, fits, EE in *. lia. }
  destruct (mult_near N N' Hs W3) as [Q QV].
  unfold mul_big_number. set (x' := Big (fmul (mant x) (mant k)) (ex x + ex k)).
  assert (Sx' : stands (M1 + M2 + 1) (v1 * v2) x').
  { constructor; unfold x'; cbn [mant ex]; [|lia|].
    - replace (v1 * v2 / p10 (ex x + ex k)) with (A * B) by (rewrite p10_add; unfold A, B; pose proof (p10_pos (ex x)); pose proof (p10_pos (ex k)); field; lra).
      replace (M1 + M2 + 1 + Z.to_nat (ex x + ex k))%nat with (S (M1 + Z.to_nat (ex x) + (M2 + Z.to_nat (ex k)))) by lia. exact Q.
    - destruct (sd_v X) as [->|]; [left; ring|]. destruct (sd_v Y) as [->|]; [left; ring|right]. rewrite <- (Rmult_1_l 1). apply Rmult_le_compat; lra. }
  assert (L900 : val (mant x') < bpow radix2 900).
  { unfold x'. cbn [mant]. pose proof (nr_hi Q) as U. apply Rle_lt_trans with (bpow radix2 10).
    - assert (w ^ S (M1 + Z.to_nat (ex x) + (M2 + Z.to_nat (ex k))) <= 2). { apply Rle_trans with (1 + / 2048); [|lra]. apply fits_w. unfold roomy, fits, EE in *. lia. }
      assert (0 <= A * B <= 121) by nra. simpl. nra.
    - apply bpow_lt. lia. }
  destruct ten_ok as [N10 V10].
  destruct (@smaller_ok DD (M1 + M2 + 1) (v1 * v2) x' f_ten Sx' Hv) as (y & E & Sy & Y1 & Y2 & Y3 & Y4).
  - unfold DD. lia.
  - unfold x'. cbn [ex]. unfold roomy, fits, DD, EE in *. lia.
  - exact L900.
  - exact (nr_fin N10).
  - rewrite V10. lra.
  - exists y. split; [exact E|]. unfold x' in Y2. cbn [ex] in Y2. constructor; auto; [now rewrite <- V10|unfold DD, EE in *; lia].
Qed.

(** division by a power of ten *)
Lemma div10_ok n : forall N A a, near N A a -> (A = 0 \/ p10 (- EE) <= A / p10 (Z.of_nat n)) -> A <= p10 300 -> fits (Z.of_nat (N + n)) ->
  near (N + n) (A / p10 (Z.of_nat n)) (div10 n a).
Proof.
  induction n as [|n IH]; intros N A a H Hlo Hhi HN.
  - change (p10 (Z.of_nat 0)) with 1. replace (A / 1) with A by field. rewrite Nat.add_0_r. exact H.
  - rewrite Nat2Z.inj_succ, <- Z.add_1_r in *. rewrite quot_S in *. pose proof (near_pos H) as A0. pose proof (p10_pos (Z.of_nat n)) as Pn.
    assert (Q0 : 0 <= A / p10 (Z.of_nat n)) by now apply quot_pos.
    assert (I : near (N + n) (A / p10 (Z.of_nat n)) (div10 n a)).
    { apply IH; auto; [|unfold fits in *; lia]. destruct Hlo as [|Hlo]; auto. right. lra. }
    assert (Hs : sized (A / p10 (Z.of_nat n) / 10)).
    { split.
      - destruct Hlo as [->|Hlo]; [left; unfold Rdiv; ring|right]. apply Rle_trans with (2 := Hlo). apply Rle_trans with (2 := p10_sized). apply bpow_le. lia.
      - apply Rle_trans with A; [|apply Rle_trans with (1 := Hhi); apply Rle_trans with (1 := p10_300); apply bpow_le; lia].
        assert (1 <= p10 (Z.of_nat n)) by (apply p10_ge1; lia). assert (A / p10 (Z.of_nat n) * p10 (Z.of_nat n) = A) by apply quot_mul. nra. }
    destruct ten_ok as [N10 _]. destruct (quot_near I N10 ltac:(lra) Hs) as [Q _].
    { rewrite Nat.add_0_r. apply Rle_trans with (1 + / 2048); [|lra]. apply fits_w. unfold fits in *. lia. }
    replace (N + S n)%nat with (S (N + n + 0)) by lia. exact Q.
Qed.
Lemma mul10_ok n : forall N A a, near N A a -> (A = 0 \/ p10 (- 300) <= A) -> A * p10 (Z.of_nat n) <= p10 300 -> fits (Z.of_nat (N + n)) ->
  near (N + n) (A * p10 (Z.of_nat n)) (mul10 n a).
Proof.
  induction n as [|n IH]; intros N A a H Hlo Hhi HN.
  - change (p10 (Z.of_nat 0)) with 1. rewrite Rmult_1_r, Nat.add_0_r. exact H.
  - rewrite Nat2Z.inj_succ, <- Z.add_1_r in *. rewrite p10_S in *. pose proof (near_pos H) as A0. pose proof (p10_pos (Z.of_nat n)) as Pn.
    assert (Q0 : 0 <= A * p10 (Z.of_nat n)) by nra.
    assert (I : near (N + n) (A * p10 (Z.of_nat n)) (mul10 n a)).
    { apply IH; auto; [nra|unfold fits in *; lia]. }
    replace (A * (10 * p10 (Z.of_nat n))) with (A * p10 (Z.of_nat n) * 10) in * by ring.
    assert (Hs : sized (A * p10 (Z.of_nat n) * 10)).
    { split.
      - destruct Hlo as [->|Hlo]; [left; ring|right]. apply Rle_trans with (bpow radix2 (-1000)); [apply bpow_le; lia|]. pose proof p10_m300. assert (1 <= p10 (Z.of_nat n)) by (apply p10_ge1; lia). nra.
      - apply Rle_trans with (1 := Hhi). apply Rle_trans with (1 := p10_300). apply bpow_le. lia. }
    destruct ten_ok as [N10 _]. destruct (mult_near I N10 Hs) as [Q _].
    { rewrite Nat.add_0_r. apply Rle_trans with (1 + / 2048); [|lra]. apply fits_w. unfold fits in *. lia. }
    replace (N + S n)%nat with (S (N + n + 0)) by lia. exact Q.
Qed.

Lemma quot_max v a b : (0 <= a)%Z -> (0 <= b)%Z -> v / p10 a / p10 (Z.of_nat (Z.to_nat (b - a))) = v / p10 (Z.max a b).
Proof.
  intros Ha Hb. replace (p10 (Z.max a b)) with (p10 a * p10 (Z.of_nat (Z.to_nat (b - a)))).
  - pose proof (p10_pos a). pose proof (p10_pos (Z.of_nat (Z.to_nat (b - a)))). field. lra.
  - rewrite <- p10_add. f_equal. lia.
Qed.
Lemma low_quot v e : v = 0 \/ 1 <= v -> (e <= EE)%Z -> v / p10 e = 0 \/ p10 (- EE) <= v / p10 e.
Proof.
  intros [->|V1] He; [left; unfold Rdiv; ring|right]. apply Rmult_le_reg_r with (p10 e); [apply p10_pos|]. rewrite quot_mul, <- p10_add. apply Rle_trans with (p10 0); [apply p10_le; lia|]. change (p10 0) with 1. exact V1.
Qed.
Lemma aligned M v x e : holds M v x -> roomy M -> (0 <= e <= EE)%Z ->
  near (M + Z.to_nat (Z.max (ex x) e)) (v / p10 (Z.max (ex x) e)) (div10 (Z.to_nat (e - ex x)) (mant x)).
Proof.
  intros H HM He. destruct (hd_range H HM) as (R1 & R2 & R3). pose proof (hd_st H) as SX. pose proof (sd_near SX) as N. pose proof (sd_ex SX) as E0. pose proof (hd_ex H) as E1.
  rewrite <- quot_max by lia. replace (M + Z.to_nat (Z.max (ex x) e))%nat with (M + Z.to_nat (ex x) + Z.to_nat (e - ex x))%nat by lia.
  apply div10_ok; auto.
  - destruct (sd_v SX) as [->|V1]; [left; unfold Rdiv; ring|right]. rewrite quot_max by lia. destruct (@low_quot v (Z.max (ex x) e)) as [Z0|]; auto; [lia|].
    exfalso. pose proof (quot_mul v (Z.max (ex x) e)) as Em. rewrite Z0 in Em. lra.
  - apply Rle_trans with 11; [lra|]. apply Rle_trans with (p10 2); [change (p10 2) with 100; lra|apply p10_le; lia].
  - unfold roomy, fits, EE in *. lia.
Qed.
Lemma div10_0 n : (n <= 0)%Z -> forall a, div10 (Z.to_nat n) a = a.
Proof. intros H a. replace (Z.to_nat n) with 0%nat by lia. reflexivity. Qed.
Lemma add_ok M v1 x v2 k : holds M v1 x -> holds M v2 k -> roomy M -> v1 + v2 <= p10 DD ->
  exists y, add_big_number x k = Ok y /\ holds (M + 1) (v1 + v2) y /\ (tight x -> tight k -> tight y).
Proof.
  intros H1 H2 HM Hv. pose proof (hd_st H1) as X. pose proof (sd_ex X) as E0. pose proof (hd_ex H1) as E1. pose proof (hd_st H2) as Y. pose proof (sd_ex Y) as F0. pose proof (hd_ex H2) as F1.
  destruct (hd_range H1 HM) as (R1 & R2 & _). destruct (hd_range H2 HM) as (S1 & S2 & _).
  pose proof (@aligned M v1 x (ex k) H1 HM ltac:(lia)) as N1. pose proof (@aligned M v2 k (ex x) H2 HM ltac:(lia)) as N2. rewrite (Z.max_comm (ex k)) in N2.
  unfold add_big_number. set (e := Z.max (ex x) (ex k)) in *. set (xa := div10 (Z.to_nat (ex k - ex x)) (mant x)) in *. set (ka := div10 (Z.to_nat (ex x - ex k)) (mant k)) in *.
  assert (V : v1 + v2 = 0 \/ 1 <= v1 + v2) by (destruct (sd_v X) as [->|]; destruct (sd_v Y) as [->|]; [left|right|right|right]; lra).
  assert (Esum : v1 / p10 e + v2 / p10 e = (v1 + v2) / p10 e) by (unfold Rdiv; ring).
  assert (P1 : p10 (ex x) <= p10 e) by (apply p10_le; lia). assert (P2 : p10 (ex k) <= p10 e) by (apply p10_le; lia).
  assert (Up : forall v c, 0 <= v -> v / p10 c <= 11 -> p10 c <= p10 e -> v / p10 e <= 11).
  { intros v c V0 Hc Hp. pose proof (quot_mul v c) as Q1. pose proof (quot_mul v e) as Q2. pose proof (p10_pos c). pose proof (p10_pos e). pose proof (quot_pos c V0). pose proof (quot_pos e V0). nra. }
  pose proof (v_nonneg (sd_v X)) as V10. pose proof (v_nonneg (sd_v Y)) as V20.
  pose proof (Up v1 (ex x) V10 ltac:(lra) P1) as U1. pose proof (Up v2 (ex k) V20 ltac:(lra) P2) as U2. pose proof (quot_pos e V10) as Q1. pose proof (quot_pos e V20) as Q2.
  assert (Hs : sized (v1 / p10 e + v2 / p10 e)).
  { split; [rewrite Esum|].
    - destruct (@low_quot (v1 + v2) e V) as [|L]; auto; [unfold e; lia|]. right. apply Rle_trans with (2 := L). apply Rle_trans with (2 := p10_sized). apply bpow_le. lia.
    - apply Rle_trans with (bpow radix2 10); [simpl; lra|apply bpow_le; lia]. }
  destruct (sum_near N1 N2 Hs) as [Q QV].
  { apply Rle_trans with (1 + / 2048); [|lra]. apply fits_w. unfold roomy, fits, EE, e in *. lia. }
  set (x' := Big (fadd xa ka) e).
  assert (Sx' : stands (M + 1) (v1 + v2) x').
  { constructor; unfold x'; cbn [mant ex]; [|unfold e; lia|exact V]. rewrite <- Esum. replace (M + 1 + Z.to_nat e)%nat with (S (M + Z.to_nat e)) by lia. exact Q. }
  assert (L900 : val (mant x') < bpow radix2 900).
  { unfold x'. cbn [mant]. pose proof (nr_hi Q) as U. apply Rle_lt_trans with (bpow radix2 10).
    - assert (w ^ S (M + Z.to_nat e) <= 2). { apply Rle_trans with (1 + / 2048); [|lra]. apply fits_w. unfold roomy, fits, EE, e in *. lia. }
      apply Rle_trans with (1 := U). apply Rle_trans with (22 * 2); [|simpl; lra]. apply Rmult_le_compat; try lra. apply pow_le. pose proof w_gt. lra.
    - apply bpow_lt. lia. }
  destruct ten_ok as [N10 V10'].
  destruct (@smaller_ok DD (M + 1) (v1 + v2) x' f_ten Sx' Hv) as (y & E & Sy & Y1 & Y2 & Y3 & Y4).
  - unfold DD. lia.
  - unfold x'. cbn [ex]. unfold roomy, fits, DD, EE, e in *. lia.
  - exact L900.
  - exact (nr_fin N10).
  - rewrite V10'. lra.
  - exists y. split; [exact E|]. unfold x' in Y2, Y3, Y4. cbn [ex mant] in Y2, Y3, Y4. split.
    + constructor; auto; [now rewrite <- V10'|unfold DD, EE, e in *; lia].
    + intros Tx Tk. destruct Y4 as [E4|Y4]; [|now right]. destruct (Z.le_gt_cases e 1) as [He|He]; [left; lia|]. right. apply Y3. rewrite QV. apply rnd_ge1.
      pose proof (nr_pos N1) as A1. pose proof (nr_pos N2) as A2. destruct (Z.le_gt_cases (ex k) (ex x)) as [Hc|Hc].
      * destruct Tx as [Tx|Tx]; [unfold e in *; lia|]. unfold xa in *. rewrite div10_0 in * by lia. lra.
      * destruct Tk as [Tk|Tk]; [unfold e in *; lia|]. unfold ka in *. rewrite div10_0 in * by lia. lra.
Qed.

Lemma div_ok M1 v1 x M2 v2 k : holds M1 v1 x -> holds M2 v2 k -> roomy (M1 + M2) -> 1 <= v2 -> v1 <= p10 DD -> v2 <= p10 DD ->
  near (M1 + M2 + 900) (v1 / v2) (div_big_num x k).
Proof.
  intros H1 H2 HM V2 B1 B2. assert (HM1 : roomy M1) by (unfold roomy, fits in *; lia). assert (HM2 : roomy M2) by (unfold roomy, fits in *; lia).
  pose proof (hd_st H1) as X. pose proof (sd_near X) as N. pose proof (sd_ex X) as E0. pose proof (hd_ex H1) as E1. pose proof (hd_st H2) as Y. pose proof (sd_near Y) as N'. pose proof (sd_ex Y) as F0. pose proof (hd_ex H2) as F1.
  destruct (hd_range H1 HM1) as (R1 & R2 & R3). destruct (hd_range H2 HM2) as (S1 & S2 & S3).
  set (A := v1 / p10 (ex x)) in *. set (B := v2 / p10 (ex k)) in *.
  assert (Pk : 0 < p10 (ex k)) by apply p10_pos. assert (Px : 0 < p10 (ex x)) by apply p10_pos.
  assert (EA : A * p10 (ex x) = v1) by (unfold A; now rewrite quot_mul). assert (EB : B * p10 (ex k) = v2) by (unfold B; now rewrite quot_mul).
  assert (B0 : 0 < B) by nra. destruct S1 as [S1|S1]; [lra|].
  assert (Q0 : A / B * B = A) by (field; lra).
  assert (P5 : p10 (- EE) * p10 EE = 1) by (unfold p10; rewrite <- bpow_plus; reflexivity). pose proof (p10_pos (- EE)) as Pm. pose proof (p10_pos EE) as Pp.
  assert (AB0 : 0 <= A / B) by (unfold Rdiv; apply Rmult_le_pos; [lra|left; now apply Rinv_0_lt_compat]).
  assert (AB1 : A / B <= p10 297).
  { apply Rle_trans with (11 * p10 EE). - assert (1 <= B * p10 EE) by nra. assert (A / B <= A / B * (B * p10 EE)) by nra. replace (A / B * (B * p10 EE)) with (A * p10 EE) in H0 by (field; lra). nra.
    - replace (p10 297) with (100 * p10 EE) by (change 297%Z with (2 + EE)%Z; rewrite p10_add; reflexivity). nra. }
  assert (AB2 : A / B = 0 \/ p10 (-297) <= A / B).
  { destruct R1 as [->|R1]; [left; unfold Rdiv; ring|right]. apply Rmult_le_reg_r with B; auto. rewrite Q0. apply Rle_trans with (p10 (-297) * 11); [apply Rmult_le_compat_l; [left; apply p10_pos|lra]|].
    replace (p10 (- EE)) with (100 * p10 (-297)) in R1 by (change (- EE)%Z with (2 + (-297))%Z; rewrite p10_add; reflexivity). pose proof (p10_pos (-297)). nra. }
  assert (Hs : sized (A / B)).
  { split.
    - destruct AB2 as [|L]; auto. right. apply Rle_trans with (2 := L). apply Rle_trans with (bpow radix2 (-1000)); [apply bpow_le; lia|]. apply Rle_trans with (1 := p10_m300). apply p10_le. lia.
    - apply Rle_trans with (1 := AB1). apply Rle_trans with (p10 300); [apply p10_le; lia|]. apply Rle_trans with (1 := p10_300). apply bpow_le. lia. }
  destruct (quot_near N N' B0 Hs) as [Q _].
  { apply Rle_trans with (1 + / 2048); [|lra]. apply fits_w. unfold roomy, fits, EE in *. lia. }
  unfold div_big_num.
  assert (EQ : v1 / v2 = A / B * p10 (ex x) / p10 (ex k)). { rewrite <- EA, <- EB. field. lra. }
  destruct (Z.le_gt_cases (ex k) (ex x)) as [Hc|Hc].
  - rewrite (@div10_0 (ex k - ex x)) by lia. set (d := Z.to_nat (ex x - ex k)).
    assert (ED : v1 / v2 = A / B * p10 (Z.of_nat d)).
    { rewrite EQ. unfold d. rewrite Z2Nat.id by lia. replace (p10 (ex x)) with (p10 (ex x - ex k) * p10 (ex k)) by (rewrite <- p10_add; f_equal; lia). field. lra. }
    rewrite ED. eapply near_mono; [|apply mul10_ok with (1 := Q)].
    + unfold d, EE in *. lia.
    + destruct AB2 as [|L]; auto. right. apply Rle_trans with (2 := L). apply p10_le. lia.
    + rewrite <- ED. apply Rle_trans with (p10 DD); [|apply p10_le; unfold DD; lia]. apply Rle_trans with (2 := B1). pose proof (v_nonneg (sd_v X)). assert (v1 / v2 * v2 = v1) by (field; lra).
      assert (0 <= v1 / v2) by (unfold Rdiv; apply Rmult_le_pos; auto; left; apply Rinv_0_lt_compat; lra). nra.
    + unfold roomy, fits, EE, d in *. lia.
  - set (d := Z.to_nat (ex k - ex x)). replace (Z.to_nat (ex x - ex k)) with 0%nat by lia. change (mul10 0 (div10 d (fdiv (mant x) (mant k)))) with (div10 d (fdiv (mant x) (mant k))).
    assert (ED : v1 / v2 = A / B / p10 (Z.of_nat d)).
    { rewrite EQ. unfold d. rewrite Z2Nat.id by lia. replace (p10 (ex k)) with (p10 (ex k - ex x) * p10 (ex x)) by (rewrite <- p10_add; f_equal; lia). pose proof (p10_pos (ex k - ex x)). field. lra. }
    rewrite ED. eapply near_mono; [|apply div10_ok with (1 := Q)].
    + unfold d, EE in *. lia.
    + destruct (sd_v X) as [Z0|V1]; [left; unfold A; rewrite Z0; unfold Rdiv; ring|right]. rewrite <- ED. apply Rmult_le_reg_r with v2; [lra|]. replace (v1 / v2 * v2) with v1 by (field; lra).
      apply Rle_trans with (p10 (- EE) * p10 DD); [apply Rmult_le_compat_l; lra|]. rewrite <- p10_add. apply Rle_trans with (p10 0); [apply p10_le; unfold DD, EE; lia|]. exact V1.
    + apply Rle_trans with (1 := AB1). apply p10_le. lia.
    + unfold roomy, fits, EE, d in *. lia.
Qed.

(** 0 / 0 *)
Lemma nan_div10 n x : is_nan 53 1024 x = true -> is_nan 53 1024 (div10 n x) = true.
Proof. intros H. induction n as [|n IH]; [exact H|]. change (div10 (S n) x) with (fdiv (div10 n x) f_ten). destruct (div10 n x) as [| |s pl Hp|]; try discriminate IH. reflexivity. Qed.
Lemma nan_mul10 n x : is_nan 53 1024 x = true -> is_nan 53 1024 (mul10 n x) = true.
Proof. intros H. induction n as [|n IH]; [exact H|]. change (mul10 (S n) x) with (fmul (mul10 n x) f_ten). destruct (mul10 n x) as [| |s pl Hp|]; try discriminate IH. reflexivity. Qed.
Lemma holds_zero M x : holds M 0 x -> mant x = B754_zero 53 1024 false.
Proof. intros H. pose proof (sd_near (hd_st H)) as N. replace (0 / p10 (ex x)) with 0 in N by (unfold Rdiv; ring). exact (zero_is N). Qed.
Lemma div_nan M1 x M2 k : holds M1 0 x -> holds M2 0 k -> is_nan 53 1024 (div_big_num x k) = true.
Proof. intros H1 H2. unfold div_big_num. rewrite (holds_zero H1), (holds_zero H2). apply nan_mul10, nan_div10. reflexivity. Qed.
