(** * FloatQuot: the f64 quotient of [adjust_step] (algorithms.rs 940) is exact (Flocq, binary64). *)
From Coq Require Import ZArith Reals Lia Lra Bool.
From Flocq Require Import Core Relative IEEE754.BinarySingleNaN IEEE754.Binary IEEE754.Bits.
From Verif Require Import FloatTime.
Open Scope Z_scope.

(** [x as usize]: towards zero, saturating, NaN to 0. *)
Definition trunc_usize (x : binary64) : Z :=
  match x with
  | B754_zero _ _ _ => 0
  | B754_infinity _ _ true => 0
  | B754_infinity _ _ false => 2 ^ 64 - 1
  | B754_nan _ _ _ _ _ => 0
  | B754_finite _ _ true _ _ _ => 0
  | B754_finite _ _ false m e _ =>
      Z.min (if 0 <=? e then Zpos m * 2 ^ e else Zpos m / 2 ^ (- e)) (2 ^ 64 - 1)
  end.
(** algorithms.rs 940: [(xs_cell_num as f64 * r as f64 / (rn + r) as f64) as usize] *)
Definition minenum_except (xs r rn : Z) : Z :=
  trunc_usize (b64_div mode_NE (b64_mult mode_NE (f64_of_Z xs) (f64_of_Z r)) (f64_of_Z (rn + r))).

Local Notation fexp := (SpecFloat.fexp 53 1024).
Local Notation rnd := (round radix2 fexp ZnearestE).
Local Open Scope R_scope.

Lemma trunc_ok x n : (0 <= n < 2 ^ 53)%Z -> is_finite 53 1024 x = true ->
  IZR n <= B2R 53 1024 x < IZR n + 1 -> trunc_usize x = n.
Proof.
  intros Hn Hf [X1 X2]. destruct x as [s| | |s m e H]; try discriminate Hf.
  - cbn in *. apply le_IZR in X1. lia.
  - cbn [B2R] in X1, X2. unfold F2R in X1, X2. cbn [Fnum Fexp] in X1, X2. destruct s; cbn [cond_Zopp] in X1, X2.
    + assert (Hb : 0 < bpow radix2 e) by apply bpow_gt_0. cbn in X1.
      assert (Hm : IZR (Z.neg m) < 0) by (apply IZR_lt; lia).
      assert (Hz : 0 <= IZR n) by (apply IZR_le; lia). nra.
    + cbn [trunc_usize].
      enough (Hr : (if 0 <=? e then Z.pos m * 2 ^ e else Z.pos m / 2 ^ (- e))%Z = n) by (rewrite Hr; lia).
      destruct (Z.leb_spec 0 e) as [He|He].
      * rewrite bpow_2, <- mult_IZR in X1, X2 by lia. rewrite <- plus_IZR in X2. apply le_IZR in X1. apply lt_IZR in X2. lia.
      * set (d := (2 ^ (- e))%Z) in *. assert (Hd : (0 < d)%Z) by (apply Z.pow_pos_nonneg; lia).
        assert (Hbd : bpow radix2 e * IZR d = 1).
        { unfold d. rewrite <- bpow_2 by lia. rewrite <- bpow_plus. replace (e + - e)%Z with 0%Z by lia. reflexivity. }
        assert (Hd' : 0 < IZR d) by (apply IZR_lt; lia).
        assert (Em : IZR (Z.pos m) * bpow radix2 e * IZR d = IZR (Z.pos m)) by (rewrite Rmult_assoc, Hbd; ring).
        assert (Y1 : IZR (n * d) <= IZR (Z.pos m)) by (rewrite mult_IZR, <- Em; apply Rmult_le_compat_r; lra).
        assert (Y2 : IZR (Z.pos m) < IZR ((n + 1) * d)) by (rewrite mult_IZR, plus_IZR, <- Em; apply Rmult_lt_compat_r; lra).
        apply le_IZR in Y1. apply lt_IZR in Y2. symmetry. apply Z.div_unique with (Z.pos m - d * n)%Z; lia.
Qed.

Lemma int_exact n : (Z.abs n <= 2 ^ 53)%Z -> rnd (IZR n) = IZR n.
Proof.
  intros Hn. apply round_generic; [apply valid_rnd_N|].
  destruct (Z.eq_dec (Z.abs n) (2 ^ 53)) as [E|E].
  - assert (G : generic_format radix2 fexp (IZR (2 ^ 53))).
    { rewrite <- bpow_2 by lia. replace (bpow radix2 53) with (@F2R radix2 (Float radix2 1 53)) by (unfold F2R; cbn [Fnum Fexp]; ring).
      apply generic_format_FLT. exists (Float radix2 1 53); auto; cbn; lia. }
    destruct (Z.abs_spec n) as [[_ A]|[_ A]]; rewrite A in E; [now rewrite E|].
    replace n with (- 2 ^ 53)%Z by lia. rewrite opp_IZR. now apply generic_format_opp.
  - replace (IZR n) with (@F2R radix2 (Float radix2 n 0)) by (unfold F2R; cbn; ring).
    apply generic_format_FLT. exists (Float radix2 n 0); auto; cbn; lia.
Qed.

(** The rounded quotient of two integers has the same integral part as the exact one. *)
Lemma quot_floor a b : (0 <= a)%Z -> (0 < b)%Z -> (a + b <= 2 ^ 53)%Z ->
  IZR (a / b) <= rnd (IZR a / IZR b) < IZR (a / b) + 1.
Proof.
  intros Ha Hb Hab. set (n := (a / b)%Z).
  assert (Hn : (n * b <= a < (n + 1) * b)%Z) by (pose proof (Z.div_mod a b); pose proof (Z.mod_pos_bound a b Hb); unfold n; nia).
  assert (Hn0 : (0 <= n)%Z) by (apply Z.div_pos; lia).
  assert (Rb : 0 < IZR b) by (apply IZR_lt; lia).
  assert (Q1 : IZR n <= IZR a / IZR b).
  { apply Rmult_le_reg_r with (IZR b); auto. unfold Rdiv. rewrite Rmult_assoc, Rinv_l by lra. rewrite Rmult_1_r, <- mult_IZR. apply IZR_le. lia. }
  assert (Q2 : IZR a / IZR b <= IZR (n + 1) - / IZR b).
  { apply Rmult_le_reg_r with (IZR b); auto. unfold Rdiv. rewrite Rmult_assoc, Rinv_l by lra. rewrite Rmult_minus_distr_r, Rinv_l, Rmult_1_r by lra.
    rewrite <- mult_IZR, <- minus_IZR. apply IZR_le. lia. }
  split.
  - rewrite <- (int_exact n) at 1 by nia. apply round_le; [apply FLT_exp_valid; reflexivity|apply valid_rnd_N|exact Q1].
  - destruct (Z.eq_dec a 0) as [Ea|Ea].
    { replace (IZR a / IZR b) with 0 by (rewrite Ea; unfold Rdiv; ring). rewrite round_0 by apply valid_rnd_N. apply IZR_le in Hn0. lra. }
    assert (Hq : / IZR b <= IZR a / IZR b) by (unfold Rdiv; rewrite <- (Rmult_1_l (/ IZR b)) at 1; apply Rmult_le_compat_r; [left; now apply Rinv_0_lt_compat|apply IZR_le; lia]).
    assert (Hib : 0 < / IZR b) by now apply Rinv_0_lt_compat.
    assert (Hb53 : IZR b <= bpow radix2 53) by (rewrite bpow_2 by lia; apply IZR_le; lia).
    assert (Hlow : bpow radix2 (-53) <= / IZR b) by (change (-53)%Z with (- (53))%Z; rewrite bpow_opp; apply Rinv_le; auto).
    destruct (rnd_rel (IZR a / IZR b)) as (e & E1 & R1).
    { rewrite Rabs_pos_eq by lra. apply Rle_trans with (bpow radix2 (-53)); [apply bpow_le; lia|lra]. }
    rewrite R1, plus_IZR in *. apply Rabs_le_inv in E1 as [_ E2].
    assert (P0 : 0 < bpow radix2 (-53)) by apply bpow_gt_0.
    set (q := IZR a / IZR b) in *.
    assert (Hqe : q * e <= q * bpow radix2 (-53)) by (apply Rmult_le_compat_l; lra).
    assert (Hnb : IZR (n + 1) * bpow radix2 (-53) <= / IZR b).
    { change (-53)%Z with (- (53))%Z. rewrite bpow_opp. apply Rmult_le_reg_r with (IZR b); auto. rewrite Rinv_l by lra.
      apply Rmult_le_reg_r with (bpow radix2 53); [apply bpow_gt_0|]. 
      replace (IZR (n + 1) * / bpow radix2 53 * IZR b * bpow radix2 53) with (IZR (n + 1) * IZR b * (/ bpow radix2 53 * bpow radix2 53)) by ring.
      rewrite Rinv_l by (apply Rgt_not_eq, bpow_gt_0). rewrite Rmult_1_r, Rmult_1_l, <- mult_IZR, bpow_2 by lia. apply IZR_le. lia. }
    assert (Hlt : q * bpow radix2 (-53) < IZR (n + 1) * bpow radix2 (-53)) by (apply Rmult_lt_compat_r; auto; rewrite plus_IZR; lra).
    lra.
Qed.

(** The number of mines the code plans for is the exact quotient, for every board that fits in memory. *)
Theorem C39_planned_exact : forall xs r rn, (0 <= xs < 2 ^ 53)%Z -> (0 <= r)%Z -> (0 <= rn)%Z -> (rn + r < 2 ^ 53)%Z ->
  (xs * r + (rn + r) <= 2 ^ 53)%Z -> minenum_except xs r rn = (xs * r / (rn + r))%Z.
Proof.
  intros xs r rn Hx Hr Hn Hs Hp. unfold minenum_except.
  destruct (f64_of_Z_ok xs) as [Vx Fx]; [lia|]. destruct (f64_of_Z_ok r) as [Vr Fr]; [lia|].
  destruct (Z.eq_dec (rn + r) 0) as [E0|E0].
  { assert (r = 0)%Z by lia. assert (rn = 0)%Z by lia. subst. rewrite Z.mul_0_r. change ((0 + 0)%Z) with 0%Z. change (0 / 0)%Z with 0%Z.
    unfold b64_div, b64_mult. destruct (f64_of_Z xs) as [s|s|s pl H|s m e H]; try discriminate Fx; reflexivity. }
  destruct (f64_of_Z_ok (rn + r)) as [Vs Fs]; [lia|].
  assert (Hbig : bpow radix2 53 < bpow radix2 1024) by (apply bpow_lt; lia).
  pose proof (Bmult_correct 53 1024 (eq_refl : (0 < 53)%Z) (eq_refl : (53 < 1024)%Z) binop_nan_pl64 mode_NE (f64_of_Z xs) (f64_of_Z r)) as HM.
  rewrite Vx, Vr, <- mult_IZR in HM. change (round_mode mode_NE) with ZnearestE in HM. rewrite int_exact in HM by nia.
  rewrite Rlt_bool_true in HM.
  2:{ apply Rle_lt_trans with (2 := Hbig). rewrite Rabs_pos_eq by (apply IZR_le; nia). rewrite bpow_2 by lia. apply IZR_le. nia. }
  destruct HM as (VM & FM & _). rewrite Fx, Fr in FM. cbn [andb] in FM.
  change (Bmult 53 1024 eq_refl eq_refl binop_nan_pl64 mode_NE (f64_of_Z xs) (f64_of_Z r)) with (b64_mult mode_NE (f64_of_Z xs) (f64_of_Z r)) in VM, FM.
  pose proof (Bdiv_correct 53 1024 (eq_refl : (0 < 53)%Z) (eq_refl : (53 < 1024)%Z) binop_nan_pl64 mode_NE (b64_mult mode_NE (f64_of_Z xs) (f64_of_Z r)) (f64_of_Z (rn + r))) as HD.
  rewrite VM, Vs in HD. specialize (HD ltac:(apply IZR_neq; exact E0)). change (round_mode mode_NE) with ZnearestE in HD.
  assert (Hq : IZR (xs * r / (rn + r)) <= rnd (IZR (xs * r) / IZR (rn + r)) < IZR (xs * r / (rn + r)) + 1) by (apply quot_floor; nia).
  assert (Hn0 : (0 <= xs * r / (rn + r) < 2 ^ 53)%Z).
  { split; [apply Z.div_pos; nia|]. apply Z.div_lt_upper_bound; nia. }
  rewrite Rlt_bool_true in HD.
  2:{ apply Rlt_le_trans with (bpow radix2 54); [|apply bpow_le; lia].
      assert (P0 : 0 <= IZR (xs * r / (rn + r))) by (apply IZR_le; lia).
      assert (P1 : IZR (xs * r / (rn + r)) + 1 <= bpow radix2 54) by (rewrite bpow_2, <- plus_IZR by lia; apply IZR_le; lia).
      rewrite Rabs_pos_eq; lra. }
  destruct HD as (VD & FD & _). rewrite FM in FD.
  apply trunc_ok; [exact Hn0|exact FD|].
  change (b64_div mode_NE (b64_mult mode_NE (f64_of_Z xs) (f64_of_Z r)) (f64_of_Z (rn + r)))
    with (Bdiv 53 1024 eq_refl eq_refl binop_nan_pl64 mode_NE (b64_mult mode_NE (f64_of_Z xs) (f64_of_Z r)) (f64_of_Z (rn + r))).
  rewrite VD. exact Hq.
Qed.
Print Assumptions C39_planned_exact.

Example C39_planned_case : minenum_except 23 40 99 = 6%Z /\ minenum_except 5 0 0 = 0%Z.
Proof. split; vm_compute; reflexivity. Qed.
