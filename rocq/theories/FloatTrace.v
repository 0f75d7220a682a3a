(** * FloatTrace: rounding errors of the mouse path of [mouse_trace] (lemmas for C72; Flocq, binary64). *)
From Coq Require Import ZArith Reals Lia Lra Bool List.
From Flocq Require Import Core Relative IEEE754.BinarySingleNaN IEEE754.Binary IEEE754.Bits.
From Verif Require Import FloatTime FloatQuot Features.
Open Scope R_scope.
Local Notation fexp := (SpecFloat.fexp 53 1024).
Local Notation rnd := (round radix2 fexp ZnearestE).
Local Notation val := (B2R 53 1024).

Definition w : R := 1 + bpow radix2 (-52).
Lemma w_gt : 1 < w.
Proof. unfold w. pose proof (bpow_gt_0 radix2 (-52)). lra. Qed.
Lemma w_pow n : 1 <= w ^ n.
Proof. apply pow_R1_Rle. pose proof w_gt. lra. Qed.
Lemma rnd_near a : 0 <= a -> a = 0 \/ bpow radix2 (-1022) <= a -> 0 <= rnd a /\ a <= rnd a * w /\ rnd a <= a * w.
Proof.
  intros H0 [->|H]. { rewrite round_0 by apply valid_rnd_N. lra. }
  destruct (@rnd_rel a) as (e & He & ->); [now rewrite Rabs_pos_eq|]. apply Rabs_le_inv in He. unfold w.
  replace (bpow radix2 (-52)) with (2 * bpow radix2 (-53)) by (simpl; lra). set (u := bpow radix2 (-53)) in *.
  assert (Hu : 0 < u <= / 8). { split; [apply bpow_gt_0|]. apply Rle_trans with (bpow radix2 (-3)); [apply bpow_le; lia|simpl; lra]. }
  assert (1 <= (1 + e) * (1 + 2 * u)) by nra. split; [nra|]. split; nra.
Qed.

(** [x] is [a] up to [n] roundings *)
Record near (n : nat) (a : R) (x : binary64) : Prop := {
  nr_fin : is_finite 53 1024 x = true;
  nr_sign : Bsign 53 1024 x = false;
  nr_pos : 0 <= val x;
  nr_lo : a <= val x * w ^ n;
  nr_hi : val x <= a * w ^ n }.
Lemma near_pos n a x : near n a x -> 0 <= a.
Proof. intros H. pose proof (nr_hi H). pose proof (nr_pos H). pose proof (w_pow n). nra. Qed.
Lemma near_mono n m a x : (n <= m)%nat -> near n a x -> near m a x.
Proof.
  intros Hnm H. assert (Hw : w ^ n <= w ^ m) by (apply Rle_pow; auto; pose proof w_gt; lra). pose proof (near_pos H). destruct H. constructor; auto.
  - nra. - nra.
Qed.
Lemma near_zero n x : near n 0 x -> val x = 0.
Proof. intros H. pose proof (nr_hi H). pose proof (nr_pos H). nra. Qed.

Lemma sign_pos (x : binary64) : is_finite 53 1024 x = true -> 0 < val x -> exists m e H, x = B754_finite 53 1024 false m e H.
Proof.
  destruct x as [s|s| |s m e H]; intros F P; try discriminate F; [cbn in P; lra|]. destruct s; [|eauto]. exfalso.
  unfold B2R in P. assert (X : F2R (Float radix2 (cond_Zopp true (Z.pos m)) e) < 0) by (apply F2R_lt_0; cbn; lia). lra.
Qed.
Lemma zero_is n x : near n 0 x -> x = B754_zero 53 1024 false.
Proof.
  intros H. pose proof (near_zero H) as V. pose proof (nr_fin H) as F. pose proof (nr_sign H) as B. destruct x as [s|s| |s m e Hb]; try discriminate F; [cbn in B; now subst s|].
  exfalso. cbn in B. subst s. unfold B2R in V. assert (X : 0 < F2R (Float radix2 (cond_Zopp false (Z.pos m)) e)) by (apply F2R_gt_0; cbn; lia). lra.
Qed.

(** ** sums *)
Lemma plus_near n a b x y : near n a x -> near n b y -> a + b = 0 \/ 1 <= a + b -> a + b <= bpow radix2 100 -> w ^ S n <= 2 ->
  near (S n) (a + b) (b64_plus mode_NE x y).
Proof.
  intros Hx Hy Hab Hbig Hw. pose proof (near_pos Hx) as Ha. pose proof (near_pos Hy) as Hb. pose proof (w_pow n) as W1. pose proof w_gt as W.
  assert (Wn : w ^ n <= 2) by (cbn [pow] in Hw; nra).
  pose proof (nr_lo Hx). pose proof (nr_lo Hy). pose proof (nr_hi Hx). pose proof (nr_hi Hy). pose proof (nr_pos Hx). pose proof (nr_pos Hy).
  set (t := val x + val y). assert (T1 : a + b <= t * w ^ n) by (unfold t; lra). assert (T2 : t <= (a + b) * w ^ n) by (unfold t; lra).
  assert (Tt : t = 0 \/ bpow radix2 (-1022) <= t).
  { destruct Hab as [E|E]; [left; nra|right]. apply Rle_trans with (bpow radix2 (-1)); [apply bpow_le; lia|]. simpl. nra. }
  assert (T0 : 0 <= t) by (unfold t; lra).
  destruct (rnd_near T0 Tt) as (R0 & R1 & R2).
  pose proof (Bplus_correct 53 1024 (eq_refl : (0 < 53)%Z) (eq_refl : (53 < 1024)%Z) binop_nan_pl64 mode_NE x y (nr_fin Hx) (nr_fin Hy)) as HD.
  change (round_mode mode_NE) with ZnearestE in HD. change (Rdefinitions.RbaseSymbolsImpl.Rplus (val x) (val y)) with t in HD.
  rewrite Rlt_bool_true in HD.
  2:{ rewrite Rabs_pos_eq by auto. apply Rle_lt_trans with (4 * bpow radix2 100).
      - apply Rle_trans with (1 := R2). pose proof (bpow_gt_0 radix2 100). assert (t <= 2 * bpow radix2 100) by nra. assert (w <= 2). { pose proof (w_pow n). cbn [pow] in Hw. nra. } nra.
      - replace 4 with (bpow radix2 2) by (simpl; lra). rewrite <- bpow_plus. apply bpow_lt. lia. }
  destruct HD as (V & F & B). change (Bplus 53 1024 eq_refl eq_refl binop_nan_pl64 mode_NE x y) with (b64_plus mode_NE x y) in *.
  constructor; auto.
  - rewrite B. destruct (Rcompare_spec t 0); [lra| |reflexivity]. rewrite (nr_sign Hx), (nr_sign Hy). reflexivity.
  - now rewrite V.
  - rewrite V. cbn [pow]. nra.
  - rewrite V. cbn [pow]. nra.
Qed.

(** ** distances *)
Lemma sqrt_case (N : Z) : (0 <= N)%Z -> N = 0%Z \/ 1 <= sqrt (IZR N).
Proof.
  intros H. destruct (Z.eq_dec N 0) as [->|]; auto. right. rewrite <- sqrt_1. apply sqrt_le_1_alt. apply IZR_le. lia.
Qed.
Lemma dist_near N : (0 <= N < 2 ^ 53)%Z -> near 1 (sqrt (IZR N)) (b64_sqrt mode_NE (f64_of_Z N)).
Proof.
  intros HN. destruct (f64_of_Z_ok N) as [V F]; [lia|].
  destruct (Z.eq_dec N 0) as [->|Hne].
  { assert (E : b64_sqrt mode_NE (f64_of_Z 0) = B754_zero 53 1024 false) by (vm_compute; reflexivity). rewrite E, sqrt_0. constructor; cbn; try reflexivity; lra. }
  assert (H1 : 1 <= IZR N) by (apply IZR_le; lia).
  assert (Hs : 1 <= sqrt (IZR N)). { destruct (@sqrt_case N); auto; lia. }
  assert (Hs2 : sqrt (IZR N) <= IZR N). { rewrite <- (sqrt_square (IZR N)) at 2 by lra. apply sqrt_le_1_alt. nra. }
  destruct (@sign_pos (f64_of_Z N) F) as (m & e & H & E); [rewrite V; lra|].
  pose proof (Bsqrt_correct 53 1024 (eq_refl : (0 < 53)%Z) (eq_refl : (53 < 1024)%Z) unop_nan_pl64 mode_NE (f64_of_Z N)) as (VS & FS & BS).
  change (Bsqrt 53 1024 eq_refl eq_refl unop_nan_pl64 mode_NE (f64_of_Z N)) with (b64_sqrt mode_NE (f64_of_Z N)) in *.
  change (round_mode mode_NE) with ZnearestE in VS. rewrite V in VS. rewrite E in FS at 2.
  destruct (@rnd_near (sqrt (IZR N))) as (R0 & R1 & R2); [lra| |].
  { right. apply Rle_trans with (bpow radix2 0); [apply bpow_le; lia|]. simpl. lra. }
  constructor; auto.
  - rewrite BS; [|destruct (b64_sqrt _ _); try reflexivity; discriminate FS]. rewrite E. reflexivity.
  - rewrite VS. lra.
  - rewrite VS. cbn [pow]. lra.
  - rewrite VS. cbn [pow]. lra.
Qed.

(** ** quotients *)
Lemma div_near n L D p d : near n L p -> near 1 D d -> 1 <= D <= bpow radix2 100 -> L = 0 \/ 1 <= L -> L <= bpow radix2 100 -> w ^ (n + 2) <= 2 ->
  near (n + 2) (L / D) (b64_div mode_NE p d).
Proof.
  intros Hp Hd HD HL HLb Hw. pose proof w_gt as W. pose proof (w_pow n) as W1.
  rewrite pow_add in Hw. cbn [pow] in Hw. rewrite Rmult_1_r in Hw.
  assert (Wn : w ^ n <= 2) by nra. assert (W2 : w <= 2) by nra.
  pose proof (nr_lo Hp) as P1. pose proof (nr_hi Hp) as P2. pose proof (nr_lo Hd) as D1. pose proof (nr_hi Hd) as D2. rewrite pow_1 in D1, D2. pose proof (nr_pos Hp). pose proof (near_pos Hp).
  assert (Dp : 0 < val d) by nra.
  set (t := val p / val d).
  assert (T0 : 0 <= t) by (unfold t, Rdiv; apply Rmult_le_pos; auto; left; now apply Rinv_0_lt_compat).
  assert (Et : t * val d = val p) by (unfold t; field; lra).
  assert (EL : L / D * D = L) by (field; lra).
  assert (Q0 : 0 <= L / D) by (unfold Rdiv; apply Rmult_le_pos; auto; left; apply Rinv_0_lt_compat; lra).
  assert (T1 : L / D <= t * (w ^ n * w)).
  { apply Rmult_le_reg_r with D; [lra|]. rewrite EL. apply Rle_trans with (1 := P1). rewrite <- Et. replace (t * (w ^ n * w) * D) with (t * w ^ n * (D * w)) by ring.
    replace (t * val d * w ^ n) with (t * w ^ n * val d) by ring. apply Rmult_le_compat_l; [nra|lra]. }
  assert (T2 : t <= L / D * (w ^ n * w)).
  { apply Rmult_le_reg_r with (val d); auto. rewrite Et. apply Rle_trans with (1 := P2). rewrite <- EL at 1.
    replace (L / D * (w ^ n * w) * val d) with (L / D * w ^ n * (val d * w)) by ring. replace (L / D * D * w ^ n) with (L / D * w ^ n * D) by ring. apply Rmult_le_compat_l; [nra|lra]. }
  assert (HB : 0 < bpow radix2 100) by apply bpow_gt_0.
  assert (HB2 : bpow radix2 (-100) * bpow radix2 100 = 1) by (rewrite <- bpow_plus; reflexivity).
  assert (HBp : 0 < bpow radix2 (-100)) by apply bpow_gt_0.
  assert (Tt : t = 0 \/ bpow radix2 (-1022) <= t).
  { destruct HL as [->|HL1]; [left; nra|right]. assert (Hq : bpow radix2 (-100) <= L / D). { apply Rmult_le_reg_r with D; [lra|]. rewrite EL. nra. }
    apply Rle_trans with (bpow radix2 (-100) / 4).
    - apply Rle_trans with (bpow radix2 (-102)); [apply bpow_le; lia|]. replace (bpow radix2 (-100)) with (4 * bpow radix2 (-102)); [lra|]. replace 4 with (bpow radix2 2) by (simpl; lra). now rewrite <- bpow_plus.
    - assert (w ^ n * w <= 4) by nra. nra. }
  destruct (rnd_near T0 Tt) as (R0 & R1 & R2).
  pose proof (Bdiv_correct 53 1024 (eq_refl : (0 < 53)%Z) (eq_refl : (53 < 1024)%Z) binop_nan_pl64 mode_NE p d ltac:(lra)) as HDv.
  change (round_mode mode_NE) with ZnearestE in HDv. change (val p / val d) with t in HDv.
  assert (HtB : t <= 4 * bpow radix2 100).
  { assert (L / D <= bpow radix2 100). { apply Rmult_le_reg_r with D; [lra|]. rewrite EL. nra. } assert (w ^ n * w <= 4) by nra. nra. }
  rewrite Rlt_bool_true in HDv.
  2:{ rewrite Rabs_pos_eq by auto. apply Rle_lt_trans with (8 * bpow radix2 100); [nra|]. replace 8 with (bpow radix2 3) by (simpl; lra). rewrite <- bpow_plus. apply bpow_lt. lia. }
  destruct HDv as (V & F & B). change (Bdiv 53 1024 eq_refl eq_refl binop_nan_pl64 mode_NE p d) with (b64_div mode_NE p d) in *.
  rewrite (nr_fin Hp) in F.
  assert (E2 : w ^ (n + 2) = w ^ n * w * w) by (rewrite pow_add; cbn [pow]; ring).
  assert (Wp : 0 <= w ^ n * w) by nra.
  constructor; auto.
  - rewrite B; [now rewrite (nr_sign Hp), (nr_sign Hd)|]. destruct (b64_div _ _ _); try reflexivity; discriminate F.
  - now rewrite V.
  - rewrite V, E2. apply Rle_trans with (1 := T1). replace (rnd t * (w ^ n * w * w)) with (rnd t * w * (w ^ n * w)) by ring. now apply Rmult_le_compat_r.
  - rewrite V, E2. apply Rle_trans with (1 := R2). replace (L / D * (w ^ n * w * w)) with (L / D * (w ^ n * w) * w) by ring. apply Rmult_le_compat_r; [lra|auto].
Qed.

(** ** comparisons *)
Lemma gt_finite (a b : binary64) : is_finite 53 1024 a = true -> is_finite 53 1024 b = true -> f_gt a b = true <-> val b < val a.
Proof.
  intros Fa Fb. unfold f_gt, b64_compare. rewrite (Bcompare_correct 53 1024 a b Fa Fb). destruct (Rcompare_spec (val a) (val b)); split; intros X; try lra; try discriminate X; auto.
Qed.
Lemma seven_ok : val f_seven = 7 /\ is_finite 53 1024 f_seven = true.
Proof. apply f64_of_Z_ok. lia. Qed.
Lemma five_ok : val f_five = 5 /\ is_finite 53 1024 f_five = true.
Proof. apply f64_of_Z_ok. lia. Qed.
Lemma div_Z a b : (0 < a < 1000)%Z -> (0 < b < 1000)%Z -> val (b64_div mode_NE (f64_of_Z a) (f64_of_Z b)) = rnd (IZR a / IZR b) /\
  is_finite 53 1024 (b64_div mode_NE (f64_of_Z a) (f64_of_Z b)) = true /\ bpow radix2 (-1022) <= IZR a / IZR b.
Proof.
  intros Ha Hb. destruct (f64_of_Z_ok a) as [Va Fa]; [lia|]. destruct (f64_of_Z_ok b) as [Vb Fb]; [lia|].
  assert (A : 1 <= IZR a <= 1000) by (split; apply IZR_le; lia). assert (B : 1 <= IZR b <= 1000) by (split; apply IZR_le; lia).
  assert (E : IZR a / IZR b * IZR b = IZR a) by (field; lra).
  assert (Q : / 1024 <= IZR a / IZR b <= 1024) by (split; nra).
  assert (Hlo : bpow radix2 (-1022) <= IZR a / IZR b) by (apply Rle_trans with (bpow radix2 (-10)); [apply bpow_le; lia|simpl; lra]).
  pose proof (Bdiv_correct 53 1024 (eq_refl : (0 < 53)%Z) (eq_refl : (53 < 1024)%Z) binop_nan_pl64 mode_NE (f64_of_Z a) (f64_of_Z b)) as HD.
  rewrite Va, Vb in HD. specialize (HD ltac:(lra)). change (round_mode mode_NE) with ZnearestE in HD.
  destruct (@rnd_near (IZR a / IZR b)) as (R0 & R1 & R2); [lra|auto|].
  rewrite Rlt_bool_true in HD.
  2:{ rewrite Rabs_pos_eq by auto. apply Rle_lt_trans with (bpow radix2 11); [|apply bpow_lt; lia]. assert (w <= 2). { unfold w. assert (bpow radix2 (-52) <= 1) by (apply (bpow_le radix2 (-52) 0); lia). lra. } simpl. nra. }
  destruct HD as (V & F & _). rewrite Fa in F. auto.
Qed.
Lemma half_ok : val f_three_half = 7 / 2 /\ is_finite 53 1024 f_three_half = true.
Proof.
  destruct (@div_Z 7 2) as (V & F & _); [lia|lia|]. split; auto. unfold f_three_half. rewrite V. apply round_generic; [apply valid_rnd_N|].
  replace (7 / 2) with (@F2R radix2 (Float radix2 7 (-1))) by (unfold F2R; cbn; lra). apply generic_format_FLT. exists (Float radix2 7 (-1)); auto; cbn; lia.
Qed.
Lemma c101_ok : val f_101 < 5 /\ is_finite 53 1024 f_101 = true.
Proof.
  destruct (@div_Z 101 100) as (V & F & Hlo); [lia|lia|]. split; auto. unfold f_101. rewrite V. destruct (@rnd_near (101 / 100)) as (R0 & R1 & R2); [lra|auto|].
  assert (w <= 2). { unfold w. assert (bpow radix2 (-52) <= 1) by (apply (bpow_le radix2 (-52) 0); lia). lra. } lra.
Qed.

(** ** the comment *)
Lemma comment_finite k : is_finite 53 1024 k = true ->
  (7 < val k -> trace_comment k = Some VeryBent) /\ (7 / 2 < val k <= 7 -> trace_comment k = Some Bent) /\ (val k <= 7 / 2 -> trace_comment k = None).
Proof.
  intros F. destruct seven_ok as [V7 F7]. destruct half_ok as [Vh Fh]. destruct five_ok as [V5 F5]. destruct c101_ok as [V1 F1].
  pose proof (gt_finite F F7) as G7. pose proof (gt_finite F Fh) as Gh. pose proof (gt_finite F F5) as G5. pose proof (gt_finite F1 F) as G1.
  rewrite V7 in G7. rewrite Vh in Gh. rewrite V5 in G5. unfold trace_comment.
  destruct (f_gt k f_seven); [|destruct (f_gt k f_three_half)].
  - assert (7 < val k) by now apply G7. repeat split; intros; auto; lra.
  - assert (~ 7 < val k) by (intros X; apply G7 in X; discriminate X). assert (7 / 2 < val k) by now apply Gh. repeat split; intros; auto; lra.
  - assert (~ 7 / 2 < val k) by (intros X; apply Gh in X; discriminate X).
    destruct (f_gt f_101 k); [destruct (f_gt k f_five) eqn:E5|].
    + assert (5 < val k) by now apply G5. assert (val k < val f_101) by now apply G1. lra.
    + repeat split; intros; auto; lra.
    + repeat split; intros; auto; lra.
Qed.
Lemma comment_never_straight k : trace_comment k <> Some Straight.
Proof.
  unfold trace_comment. destruct (f_gt k f_seven); [intros X; discriminate X|]. destruct (f_gt k f_three_half); [intros X; discriminate X|]. destruct (f_gt f_101 k) eqn:E1; [|intros X; discriminate X]. destruct (f_gt k f_five) eqn:E5; [|intros X; discriminate X].
  destruct five_ok as [V5 F5]. destruct c101_ok as [V1 F1].
  destruct k as [s|s|s pl H|s m e H].
  - apply gt_finite in E5; auto. rewrite V5 in E5. change (val (B754_zero 53 1024 s)) with 0 in E5. lra.
  - destruct s; [vm_compute in E5; discriminate E5|vm_compute in E1; discriminate E1].
  - unfold f_gt, b64_compare in E5. cbn in E5. discriminate E5.
  - apply gt_finite in E5; auto. apply gt_finite in E1; auto. lra.
Qed.
Lemma comment_inf : trace_comment (B754_infinity 53 1024 false) = Some VeryBent.
Proof. vm_compute. reflexivity. Qed.
Lemma comment_nan k : is_nan 53 1024 k = true -> trace_comment k = None.
Proof.
  destruct k as [s|s|s pl H|s m e H]; intros X; try discriminate X. unfold trace_comment, f_gt, b64_compare. cbn [Bcompare]. 
  replace (Bcompare 53 1024 f_101 (B754_nan 53 1024 s pl H)) with (@None comparison); [reflexivity|]. destruct f_101; reflexivity.
Qed.

(** ** accumulated errors *)
Lemma w_small n : (Z.of_nat n <= 2 ^ 31)%Z -> w ^ n <= 1 + / 1000000.
Proof.
  intros H. set (u := bpow radix2 (-52)). assert (Hu : 0 < u) by apply bpow_gt_0.
  assert (Hnu : INR n * u <= / 2000000).
  { rewrite INR_IZR_INZ. apply Rle_trans with (IZR (2 ^ 31) * u); [apply Rmult_le_compat_r; [lra|now apply IZR_le]|]. unfold u. rewrite <- bpow_2 by lia. rewrite <- bpow_plus. 
    change (31 + -52)%Z with (-21)%Z. simpl. lra. }
  assert (B : forall k, 1 - INR k * u <= (1 - u) ^ k).
  { assert (Hu1 : u <= 1) by (apply (bpow_le radix2 (-52) 0); lia). induction k as [|k IH]; [cbn; lra|]. rewrite S_INR. cbn [pow]. assert (0 <= INR k) by apply pos_INR.
    assert (P : 0 <= (1 - u) ^ k <= 1) by (split; [apply pow_le; lra|apply Rle_trans with (1 ^ k); [apply pow_incr; lra|rewrite pow1; lra]]). nra. }
  specialize (B n).
  assert (P : w ^ n * (1 - u) ^ n <= 1).
  { rewrite <- Rpow_mult_distr. apply Rle_trans with (1 ^ n); [|rewrite pow1; lra]. apply pow_incr. unfold w. fold u. assert (Hu1 : u <= 1) by (apply (bpow_le radix2 (-52) 0); lia). nra. }
  pose proof (w_pow n). nra.
Qed.
(** the verdict for a path of length [L] and a distance [D], [n] roundings *)
Lemma verdict n L D p d : near n L p -> near 1 D d -> D = 0 \/ 1 <= D <= bpow radix2 100 -> L = 0 \/ 1 <= L -> L <= bpow radix2 100 -> (Z.of_nat n <= 2 ^ 30)%Z ->
  (7 * D * (1 + / 1000000) < L -> trace_comment (b64_div mode_NE p d) = Some VeryBent) /\
  (7 / 2 * D * (1 + / 1000000) < L -> L * (1 + / 1000000) <= 7 * D -> trace_comment (b64_div mode_NE p d) = Some Bent) /\
  (L * (1 + / 1000000) <= 7 / 2 * D -> trace_comment (b64_div mode_NE p d) = None).
Proof.
  intros Hp Hd HD HL HLb Hn. pose proof (near_pos Hp) as L0. destruct HD as [->|HD].
  - pose proof (zero_is Hd) as ->. destruct HL as [->|HL].
    + pose proof (zero_is Hp) as ->. rewrite comment_nan by (vm_compute; reflexivity). repeat split; intros; auto; lra.
    + destruct (@sign_pos p (nr_fin Hp)) as (m & e & H & ->).
      { pose proof (nr_lo Hp). pose proof (nr_pos Hp). pose proof (w_pow n). nra. }
      change (b64_div mode_NE (B754_finite 53 1024 false m e H) (B754_zero 53 1024 false)) with (B754_infinity 53 1024 false). rewrite comment_inf. repeat split; intros; auto; lra.
  - assert (W : w ^ (n + 2) <= 1 + / 1000000) by (apply w_small; lia).
    assert (Hk : near (n + 2) (L / D) (b64_div mode_NE p d)) by (apply div_near; auto; lra).
    destruct (comment_finite (nr_fin Hk)) as (C1 & C2 & C3). pose proof (nr_lo Hk) as K1. pose proof (nr_hi Hk) as K2. pose proof (nr_pos Hk) as K0.
    set (k := val (b64_div mode_NE p d)) in *. pose proof (w_pow (n + 2)) as W1. set (W' := w ^ (n + 2)) in *.
    assert (EL : L / D * D = L) by (field; lra). set (q := L / D) in *.
    assert (Q0 : 0 <= q) by (apply (near_pos Hk)).
    assert (A1 : forall c, 0 < c -> c * D * (1 + / 1000000) < L -> c < k).
    { intros c Hc H. assert (c * (1 + / 1000000) < q) by nra. nra. }
    assert (A2 : forall c, 0 < c -> L * (1 + / 1000000) <= c * D -> k <= c).
    { intros c Hc H. assert (q * (1 + / 1000000) <= c) by nra. nra. }
    split; [|split].
    + intros H. apply C1. apply A1; [lra|auto].
    + intros H H'. apply C2. split; [apply A1; [lra|auto]|apply A2; [lra|auto]].
    + intros H. apply C3. apply A2; [lra|auto].
Qed.
