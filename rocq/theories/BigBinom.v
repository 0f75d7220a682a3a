(** * BigBinom: the rounding error of [C] (utils.rs 719-733). *)
From Coq Require Import ZArith Reals Lia Lra Bool List.
From Flocq Require Import Core Relative IEEE754.BinarySingleNaN IEEE754.Binary IEEE754.Bits.
From Verif Require Import Base LayMine Spec BaseFacts Utils UtilsProofs SolverSpec FloatTime FloatQuot FloatTrace BigNum FloatNear BigNumProofs.
Import ListNotations.
Open Scope R_scope.
Local Notation rnd := (round radix2 (SpecFloat.fexp 53 1024) ZnearestE).
Local Notation val := (B2R 53 1024).

Lemma big_limit : is_finite 53 1024 f_1e208 = true /\ 10 <= val f_1e208 <= bpow radix2 700.
Proof.
  destruct (@of_Z_near (10 ^ 208)) as [N V]. { split; [lia|]. vm_compute. reflexivity. }
  split; [exact (nr_fin N)|]. change f_1e208 with (f64_of_Z (10 ^ 208)). rewrite V. split.
  - rewrite <- (@int_exact 10) by lia. apply round_le; [apply FLT_exp_valid; reflexivity|apply valid_rnd_N|]. apply IZR_le. vm_compute. discriminate.
  - pose proof (nr_hi N) as U. rewrite V, pow_1 in U. apply Rle_trans with (1 := U). apply Rle_trans with (bpow radix2 699 * 2).
    + apply Rmult_le_compat; [apply IZR_le; lia|pose proof w_gt; lra| |].
      * rewrite bpow_2 by lia. apply IZR_le. vm_compute. discriminate.
      * unfold w. assert (bpow radix2 (-52) <= 1) by (apply (bpow_le radix2 (-52) 0); lia). lra.
    + change 2 with (bpow radix2 1). rewrite <- bpow_plus. apply bpow_le. lia.
Qed.
Lemma rnd_mono a b : a <= b -> rnd a <= rnd b.
Proof. intros H. apply round_le; [apply FLT_exp_valid; reflexivity|apply valid_rnd_N|exact H]. Qed.

Section Binom.
Variables (n k : nat) (D : Z).
Hypothesis Hn : (Z.of_nat n <= 10 ^ 10)%Z.
Hypothesis Hk : (k + k <= n)%nat.
Hypothesis HD : (0 <= D <= 10 ^ 11)%Z.
Hypothesis HB : forall j, (j <= k)%nat -> INR (binom n j) <= p10 D.

Definition goes (i : nat) (c : big) : Prop :=
  stands (2 * i) (INR (binom n i)) c /\ 1 <= val (mant c) < val f_1e208 /\ (ex c <= D)%Z.
Lemma binom_ge1 j : (j <= n)%nat -> 1 <= INR (binom n j).
Proof.
  intros H. apply (le_INR 1). assert (G : forall n k, (k <= n)%nat -> binom n k <> 0%nat).
  { intros m. induction m as [|m IH]; intros [|j'] Hj; cbn [binom]; try lia. specialize (IH j' ltac:(lia)). lia. }
  specialize (G n j H). lia.
Qed.
Lemma C_step i c : (i < k)%nat -> goes i c -> exists c',
  become_smaller_than (Big (fdiv (fmul (mant c) (f_of (n - i))) (f_of (i + 1))) (ex c)) f_1e208 = Ok c' /\ goes (S i) c'.
Proof.
  intros Hi (Sc & [V1 V2] & Ex). pose proof (sd_near Sc) as N. pose proof (sd_ex Sc) as E0. destruct big_limit as (FL & L1 & L2).
  assert (Hni : (Z.of_nat (n - i) < 2 ^ 53)%Z). { apply Z.le_lt_trans with (10 ^ 10)%Z; [lia|reflexivity]. }
  assert (Hi1 : (Z.of_nat (i + 1) < 2 ^ 53)%Z). { apply Z.le_lt_trans with (10 ^ 10)%Z; [lia|reflexivity]. }
  destruct (@exact_near (Z.of_nat (n - i))) as [Nm Vm]; [lia|]. destruct (@exact_near (Z.of_nat (i + 1))) as [Nd Vd]; [lia|].
  rewrite <- INR_IZR_INZ in Nm, Vm, Nd, Vd.
  set (m := INR (n - i)) in *. set (d := INR (i + 1)) in *. set (A := INR (binom n i) / p10 (ex c)) in *.
  assert (Hd : 1 <= d) by (unfold d; apply (le_INR 1); lia). assert (Hmd : d <= m) by (unfold d, m; apply le_INR; lia).
  assert (Hm : m <= bpow radix2 40). { unfold m. rewrite INR_IZR_INZ, bpow_2 by lia. apply IZR_le. apply Z.le_trans with (10 ^ 10)%Z; [lia|vm_compute; discriminate]. }
  assert (HN : w ^ (2 * i + Z.to_nat (ex c)) <= 1 + / 2048). { apply fits_w. unfold fits. apply Z.le_trans with (2 * 10 ^ 10 + 10 ^ 11)%Z; [lia|vm_compute; discriminate]. }
  pose proof (w_pow (2 * i + Z.to_nat (ex c))) as W1. pose proof (nr_lo N) as NL. pose proof (nr_hi N) as NH.
  assert (A1 : / 2 <= A) by nra.
  assert (A2 : A <= bpow radix2 701).
  { assert (E : bpow radix2 701 = 2 * bpow radix2 700) by (change 2 with (bpow radix2 1); rewrite <- bpow_plus; reflexivity). pose proof (bpow_gt_0 radix2 700). nra. }
  assert (AM : / 2 <= A * m <= bpow radix2 741).
  { split; [nra|]. replace 741%Z with (701 + 40)%Z by reflexivity. rewrite bpow_plus. apply Rmult_le_compat; lra. }
  assert (S1 : sized (A * m)).
  { split; [right; apply Rle_trans with (bpow radix2 (-1)); [apply bpow_le; lia|simpl; lra]|apply Rle_trans with (bpow radix2 741); [lra|apply bpow_le; lia]]. }
  destruct (mult_near N Nm S1) as [Q1 QV1]. { rewrite Nat.add_0_r. lra. }
  assert (AMD : / 2 <= A * m / d <= bpow radix2 741).
  { assert (E : A * m / d * d = A * m) by (field; lra). assert (0 <= A * m / d) by (unfold Rdiv; apply Rmult_le_pos; [lra|left; apply Rinv_0_lt_compat; lra]). split; nra. }
  assert (S2 : sized (A * m / d)).
  { split; [right; apply Rle_trans with (bpow radix2 (-1)); [apply bpow_le; lia|simpl; lra]|apply Rle_trans with (bpow radix2 741); [lra|apply bpow_le; lia]]. }
  destruct (quot_near Q1 Nd ltac:(lra) S2) as [Q2 QV2].
  { apply Rle_trans with (1 + / 2048); [|lra]. apply fits_w. unfold fits. apply Z.le_trans with (2 * 10 ^ 10 + 10 ^ 11 + 1)%Z; [lia|vm_compute; discriminate]. }
  set (x' := Big (fdiv (fmul (mant c) (f_of (n - i))) (f_of (i + 1))) (ex c)).
  assert (Eb : INR (binom n (S i)) * d = INR (binom n i) * m).
  { unfold d, m. rewrite <- !mult_INR. f_equal. rewrite Nat.add_1_r. apply binom_absorb. }
  assert (Sx : stands (2 * S i) (INR (binom n (S i))) x').
  { constructor; unfold x'; cbn [mant ex]; [|auto|right; apply binom_ge1; lia].
    replace (INR (binom n (S i)) / p10 (ex c)) with (A * m / d).
    - replace (2 * S i + Z.to_nat (ex c))%nat with (S (S (2 * i + Z.to_nat (ex c) + 0) + 0)) by lia. exact Q2.
    - unfold A. pose proof (p10_pos (ex c)). apply Rmult_eq_reg_r with (d * p10 (ex c)); [|nra]. 
      transitivity (INR (binom n i) * m); [field; lra|]. rewrite <- Eb. field. lra. }
  assert (V1' : 1 <= val (mant x')).
  { unfold x'. cbn [mant]. unfold f_of. rewrite QV2. apply rnd_ge1. rewrite QV1, Vm, Vd.
    assert (Hr : d <= rnd (val (mant c) * m)).
    { apply Rle_trans with (rnd d); [|apply rnd_mono; nra]. unfold d. rewrite INR_IZR_INZ, int_exact by lia. lra. }
    apply Rmult_le_reg_r with d; [lra|]. replace (rnd (val (mant c) * m) / d * d) with (rnd (val (mant c) * m)) by (field; lra). lra. }
  destruct (@smaller_ok D (2 * S i) (INR (binom n (S i))) x' f_1e208 Sx) as (y & E & Sy & Y1 & Y2 & Y3 & Y4).
  - apply HB. lia.
  - lia.
  - unfold x'. cbn [ex]. unfold fits. apply Z.le_trans with (2 * 10 ^ 10 + 10 ^ 11 + 2)%Z; [lia|vm_compute; discriminate].
  - unfold x'. cbn [mant]. unfold f_of. pose proof (nr_hi Q2) as U. apply Rle_lt_trans with (bpow radix2 741 * 4).
    + apply Rle_trans with (1 := U). apply Rmult_le_compat; try lra; [apply pow_le; pose proof w_gt; lra|]. apply Rle_trans with (1 + / 2048); [|lra]. apply fits_w. unfold fits. apply Z.le_trans with (2 * 10 ^ 10 + 10 ^ 11 + 4)%Z; [lia|vm_compute; discriminate].
    + replace 4 with (bpow radix2 2) by (simpl; lra). rewrite <- bpow_plus. apply bpow_lt. lia.
  - exact FL.
  - exact L1.
  - exists y. split; [exact E|]. unfold x' in Y2. cbn [ex] in Y2. split; [exact Sy|]. split; [|lia]. split; [now apply Y3|exact Y1].
Qed.
Lemma C_loop_big : exists c, foldM (fun c i => let* m := usub n i in
                       become_smaller_than (Big (fdiv (fmul (mant c) (f_of m)) (f_of (i + 1))) (ex c)) f_1e208)
                    (seq 0 k) big_one = Ok c /\ goes k c.
Proof.
  assert (G : forall l i c, (i + l <= k)%nat -> goes i c -> exists c', foldM (fun c i => let* m := usub n i in
                       become_smaller_than (Big (fdiv (fmul (mant c) (f_of m)) (f_of (i + 1))) (ex c)) f_1e208) (seq i l) c = Ok c' /\ goes (i + l) c').
  { induction l as [|l IH]; intros i c Hl Hc.
    - exists c. rewrite Nat.add_0_r. split; [reflexivity|exact Hc].
    - destruct (@C_step i c ltac:(lia) Hc) as (c1 & E1 & H1). destruct (IH (S i) c1 ltac:(lia) H1) as (c2 & E2 & H2). exists c2.
      split; [|replace (i + S l)%nat with (S i + l)%nat by lia; exact H2]. cbn [seq foldM].
      assert (U : usub n i = Ok (n - i)%nat) by (unfold usub; destruct (Nat.leb_spec i n); [reflexivity|lia]). rewrite U. cbn [bind]. rewrite E1. cbn [bind]. exact E2. }
  destruct (G k 0%nat big_one ltac:(lia)) as (c & E & H).
  - destruct one_holds as [[S1 L1 X1] _]. split; [rewrite binom_0; exact S1|]. split; [|cbn [big_one ex]; lia].
    destruct (@exact_near 1) as [_ V]; [lia|]. destruct big_limit as (_ & L & _). unfold big_one, f_one. cbn [mant]. rewrite V. lra.
  - exists c. split; [exact E|exact H].
Qed.
Lemma C_big_half : exists c, C_big 0 n k = Ok c /\ stands (2 * k) (INR (binom n k)) c /\ 1 <= val (mant c) < 10 /\ (ex c <= D)%Z.
Proof.
  destruct C_loop_big as (c & E & Sc & [V1 V2] & Ex). cbn [C_big]. destruct (Nat.ltb_spec n (k + k)); [lia|]. rewrite E. cbn [bind].
  destruct big_limit as (FL & L1 & L2). destruct ten_ok as [N10 V10].
  destruct (@smaller_ok D (2 * k) (INR (binom n k)) c f_ten Sc) as (y & Ey & Sy & Y1 & Y2 & Y3 & Y4).
  - apply HB. lia.
  - lia.
  - unfold fits. apply Z.le_trans with (2 * 10 ^ 10 + 10 ^ 11 + 2)%Z; [lia|vm_compute; discriminate].
  - apply Rlt_le_trans with (1 := V2). apply Rle_trans with (1 := L2). apply bpow_le. lia.
  - exact (nr_fin N10).
  - rewrite V10. lra.
  - exists y. split; [exact Ey|]. split; [exact Sy|]. rewrite V10 in Y1. split; [split; auto|lia].
Qed.
End Binom.
Lemma C_big_fuel f n k : (k + k <= n)%nat -> C_big f n k = C_big 0 n k.
Proof. intros H. destruct f; cbn [C_big]; destruct (Nat.ltb_spec n (k + k)); try lia; reflexivity. Qed.
(** [M]: any bound of the number of factors *)
Theorem C_big_ok n k D : (k <= n)%nat -> (Z.of_nat n <= 10 ^ 10)%Z -> (0 <= D <= 10 ^ 11)%Z -> (forall j, (j <= n)%nat -> INR (binom n j) <= p10 D) ->
  exists c, C_big 1 n k = Ok c /\ stands n (INR (binom n k)) c /\ 1 <= val (mant c) < 10 /\ (ex c <= D)%Z.
Proof.
  intros Hk Hn HD HB. destruct (Nat.le_gt_cases (k + k) n) as [H|H].
  - rewrite C_big_fuel by auto. destruct (@C_big_half n k D Hn H HD) as (c & E & Sc & V & X); [intros; apply HB; lia|]. exists c. split; [exact E|]. split; [|auto]. eapply stands_mono; [|exact Sc]. lia.
  - assert (E0 : C_big 1 n k = C_big 0 n (n - k)).
    { transitivity (let* d := usub n k in C_big 0 n d).
      - cbn [C_big]. destruct (Nat.ltb_spec n (k + k)); [reflexivity|lia].
      - unfold usub. destruct (Nat.leb_spec k n); [reflexivity|lia]. }
    rewrite E0. destruct (@C_big_half n (n - k) D Hn ltac:(lia) HD) as (c & E & Sc & V & X); [intros; apply HB; lia|]. exists c. split; [exact E|]. rewrite binom_sym in Sc by auto. split; [|auto]. eapply stands_mono; [|exact Sc]. lia.
Qed.
Lemma C_big_panic n k : (n < k)%nat -> C_big 1 n k = Panic.
Proof.
  intros H. cbn [C_big]. destruct (Nat.ltb_spec n (k + k)); [|lia]. unfold usub. destruct (Nat.leb_spec k n); [lia|reflexivity].
Qed.
Lemma binom_pow2 n : forall j, (binom n j <= 2 ^ n)%nat.
Proof.
  induction n as [|n IH]; intros j.
  - destruct j; cbn; lia.
  - destruct j as [|j]; cbn [binom Nat.pow].
    + pose proof (IH 0%nat) as H. rewrite binom_0 in H. lia.
    + pose proof (IH j). pose proof (IH (S j)). lia.
Qed.
Lemma binom_p10 n j : INR (binom n j) <= p10 (Z.of_nat n).
Proof.
  apply Rle_trans with (INR (2 ^ n)); [apply le_INR, binom_pow2|]. rewrite pow_INR. rewrite p10_Z by lia. rewrite <- pow_IZR. apply pow_incr. simpl. lra.
Qed.
