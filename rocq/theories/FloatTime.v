(** * FloatTime: the f64 time stamps of a video (model over IEEE-754 binary64, Flocq).

    Times are kept as f64 seconds in memory and as whole milliseconds in files. *)
From Coq Require Import ZArith Reals Lia Lra Bool.
From Flocq Require Import Core Relative IEEE754.BinarySingleNaN IEEE754.Binary IEEE754.Bits.
Open Scope Z_scope.

(** [n as f64] *)
Definition f64_of_Z (n : Z) : binary64 :=
  binary_normalize 53 1024 (eq_refl : 0 < 53) (eq_refl : 53 < 1024) mode_NE n 0 false.

(** [f64::round] followed by [as u32]: to the nearest integer, halves away from zero; the cast
    saturates and sends NaN to 0. *)
Definition round_u32 (x : binary64) : Z :=
  match x with
  | B754_zero _ _ _ => 0
  | B754_infinity _ _ true => 0
  | B754_infinity _ _ false => 2 ^ 32 - 1
  | B754_nan _ _ _ _ _ => 0
  | B754_finite _ _ true _ _ _ => 0
  | B754_finite _ _ false m e _ =>
      let r := if 0 <=? e then Zpos m * 2 ^ e
               else (2 * Zpos m + 2 ^ (- e)) / (2 * 2 ^ (- e)) in
      Z.min r (2 ^ 32 - 1)
  end.

(** miscellaneous.rs 6-8 [s_to_ms] *)
Definition s_to_ms (time : binary64) : Z :=
  round_u32 (b64_mult mode_NE time (f64_of_Z 1000)).

(** evf_video.rs 73 and 184: [t as f64 / 1000.0]; base_video.rs 791: [time_ms as f64 / 1000.0]. *)
Definition ms_to_s (t : Z) : binary64 := b64_div mode_NE (f64_of_Z t) (f64_of_Z 1000).

(** ** Proofs *)
Local Notation fexp := (SpecFloat.fexp 53 1024).
Local Notation rnd := (round radix2 fexp ZnearestE).

Lemma fexp_eq : forall e, fexp e = FLT_exp (-1074) 53 e.
Proof. reflexivity. Qed.

Local Open Scope R_scope.

Lemma bpow_2 (k : Z) : (0 <= k)%Z -> bpow radix2 k = IZR (2 ^ k).
Proof. intros. rewrite <- IZR_Zpower by lia. reflexivity. Qed.

Lemma f64_of_Z_ok n : (Z.abs n < 2 ^ 53)%Z ->
  B2R 53 1024 (f64_of_Z n) = IZR n /\ is_finite 53 1024 (f64_of_Z n) = true.
Proof.
  intros Hn. unfold f64_of_Z.
  pose proof (binary_normalize_correct 53 1024 (eq_refl : (0 < 53)%Z) (eq_refl : (53 < 1024)%Z)
                mode_NE n 0 false) as H.
  assert (E : @F2R radix2 {| Fnum := n; Fexp := 0 |} = IZR n).
  { unfold F2R; cbn. ring. }
  rewrite E in H.
  assert (G : round radix2 fexp (round_mode mode_NE) (IZR n) = IZR n).
  { apply round_generic; [apply valid_rnd_round_mode|].
    rewrite <- E. apply generic_format_FLT. exists (Float radix2 n 0); auto. cbn; lia. }
  rewrite G in H.
  rewrite Rlt_bool_true in H.
  - destruct H as (H1 & H2 & _). split; auto.
  - rewrite <- abs_IZR. apply Rlt_trans with (bpow radix2 53); [|apply bpow_lt; lia].
    rewrite bpow_2 by lia. apply IZR_lt. exact Hn.
Qed.

Lemma rnd_rel x : bpow radix2 (-1022) <= Rabs x ->
  exists eps, Rabs eps <= bpow radix2 (-53) /\ rnd x = x * (1 + eps).
Proof.
  intros Hx.
  destruct (relative_error_N_FLT_ex radix2 (-1074) 53 eq_refl (fun x => negb (Z.even x)) x) as (eps & H1 & H2).
  - exact Hx.
  - exists eps. split.
    + replace (bpow radix2 (-53)) with (/ 2 * bpow radix2 (-53 + 1)); [exact H1|].
      change (-53 + 1)%Z with (-52)%Z. simpl. lra.
    + exact H2.
Qed.

Lemma round_u32_ok x n : (0 <= n < 2 ^ 32)%Z -> is_finite 53 1024 x = true ->
  Rabs (B2R 53 1024 x - IZR n) < / 2 -> round_u32 x = n.
Proof.
  intros Hn Hf Hx. destruct x as [s| | |s m e H]; try discriminate Hf.
  - cbn in *. rewrite Rminus_0_l, Rabs_Ropp, <- abs_IZR in Hx.
    assert (IZR (Z.abs n) < 1) by lra. apply lt_IZR in H. lia.
  - cbn [B2R] in Hx. unfold F2R in Hx. cbn [Fnum Fexp] in Hx.
    destruct s; cbn [cond_Zopp] in Hx.
    + cbn [round_u32]. cbn in Hx.
      assert (Hb : 0 < bpow radix2 e) by apply bpow_gt_0.
      assert (Hm : IZR (Z.neg m) < 0) by (apply IZR_lt; lia).
      assert (Hp : IZR (Z.neg m) * bpow radix2 e < 0) by nra.
      apply Rabs_lt_inv in Hx.
      assert (IZR n < 1) by lra. apply lt_IZR in H0. lia.
    + cbn [round_u32].
      assert (Hr : (if 0 <=? e then Z.pos m * 2 ^ e
                    else (2 * Z.pos m + 2 ^ (- e)) / (2 * 2 ^ (- e)))%Z = n).
      { destruct (Z.leb_spec 0 e) as [He|He].
        - rewrite bpow_2, <- mult_IZR, <- minus_IZR, <- abs_IZR in Hx by lia.
          assert (G : IZR (Z.abs (Z.pos m * 2 ^ e - n)) < 1) by lra. apply lt_IZR in G. lia.
        - set (d := (2 ^ (- e))%Z) in *.
          assert (Hd : (0 < d)%Z) by (apply Z.pow_pos_nonneg; lia).
          assert (Hbd : bpow radix2 e * IZR d = 1).
          { unfold d. rewrite <- bpow_2 by lia. rewrite <- bpow_plus.
            replace (e + - e)%Z with 0%Z by lia. reflexivity. }
          assert (Hd' : 0 < IZR d) by (apply IZR_lt; lia).
          apply Rabs_lt_inv in Hx as [X1 X2].
          assert (Y1 : IZR (2 * n * d - d) < IZR (2 * Z.pos m)).
          { rewrite minus_IZR, !mult_IZR.
            assert (Q : (-/2) * IZR d < (IZR (Z.pos m) * bpow radix2 e - IZR n) * IZR d)
              by (apply Rmult_lt_compat_r; lra).
            replace ((IZR (Z.pos m) * bpow radix2 e - IZR n) * IZR d)
              with (IZR (Z.pos m) * (bpow radix2 e * IZR d) - IZR n * IZR d) in Q by ring.
            rewrite Hbd in Q. lra. }
          assert (Y2 : IZR (2 * Z.pos m) < IZR (2 * n * d + d)).
          { rewrite plus_IZR, !mult_IZR.
            assert (Q : (IZR (Z.pos m) * bpow radix2 e - IZR n) * IZR d < /2 * IZR d)
              by (apply Rmult_lt_compat_r; lra).
            replace ((IZR (Z.pos m) * bpow radix2 e - IZR n) * IZR d)
              with (IZR (Z.pos m) * (bpow radix2 e * IZR d) - IZR n * IZR d) in Q by ring.
            rewrite Hbd in Q. lra. }
          apply lt_IZR in Y1. apply lt_IZR in Y2.
          symmetry. apply Z.div_unique with (2 * Z.pos m + d - 2 * d * n)%Z; lia. }
      rewrite Hr. lia.
Qed.

Lemma bpow_m53_small : bpow radix2 (-53) * IZR (2 ^ 32) <= / 8.
Proof.
  rewrite <- bpow_2 by lia. rewrite <- bpow_plus. change (-53 + 32)%Z with (-21)%Z.
  apply Rle_trans with (bpow radix2 (-3)); [apply bpow_le; lia|]. simpl. lra.
Qed.

Theorem ms_round_trip n : (0 <= n < 2 ^ 32)%Z -> s_to_ms (ms_to_s n) = n.
Proof.
  intros Hn.
  destruct (f64_of_Z_ok n) as [Vn Fn]; [rewrite Z.abs_eq; lia|].
  destruct (f64_of_Z_ok 1000) as [Vk Fk]; [lia|].
  assert (Hbig : bpow radix2 53 < bpow radix2 1024) by (apply bpow_lt; lia).
  assert (Hn32 : IZR n < IZR (2 ^ 32)) by (apply IZR_lt; lia).
  assert (H3253 : IZR (2 ^ 32) * 4 < bpow radix2 53).
  { rewrite <- bpow_2 by lia. replace 4 with (bpow radix2 2) by (simpl; lra).
    rewrite <- bpow_plus. apply bpow_lt; lia. }
  assert (Hsmall : bpow radix2 (-1022) <= / 2000).
  { apply Rle_trans with (bpow radix2 (-11)); [apply bpow_le; lia|]. simpl. lra. }
  destruct (Z.eq_dec n 0) as [->|Hn0]; [vm_compute; reflexivity|].
  assert (Hn1 : 1 <= IZR n) by (apply IZR_le; lia).
  (* the quotient *)
  destruct (rnd_rel (IZR n / 1000)) as (e1 & E1 & R1).
  { rewrite Rabs_pos_eq by lra. lra. }
  assert (Be1 : Rabs e1 <= / 8).
  { apply Rle_trans with (1 := E1). apply Rle_trans with (bpow radix2 (-3)); [apply bpow_le; lia|].
    simpl; lra. }
  assert (Be1' := Be1). apply Rabs_le_inv in Be1.
  pose proof (Bdiv_correct 53 1024 (eq_refl : (0 < 53)%Z) (eq_refl : (53 < 1024)%Z) binop_nan_pl64
                mode_NE (f64_of_Z n) (f64_of_Z 1000)) as HD.
  rewrite Vn, Vk in HD. specialize (HD ltac:(lra)).
  change (round_mode mode_NE) with ZnearestE in HD. rewrite R1 in HD.
  rewrite Rlt_bool_true in HD.
  2:{ apply Rlt_trans with (2 := Hbig). apply Rabs_lt. split; nra. }
  destruct HD as (VD & FD & _). rewrite Fn in FD.
  change (Bdiv 53 1024 eq_refl eq_refl binop_nan_pl64 mode_NE (f64_of_Z n) (f64_of_Z 1000))
    with (ms_to_s n) in VD, FD.
  (* the product *)
  destruct (rnd_rel (IZR n * (1 + e1))) as (e2 & E2 & R2).
  { rewrite Rabs_pos_eq by nra. nra. }
  assert (Be2 : Rabs e2 <= / 8).
  { apply Rle_trans with (1 := E2). apply Rle_trans with (bpow radix2 (-3)); [apply bpow_le; lia|].
    simpl; lra. }
  assert (Be2' := Be2). apply Rabs_le_inv in Be2.
  pose proof (Bmult_correct 53 1024 (eq_refl : (0 < 53)%Z) (eq_refl : (53 < 1024)%Z) binop_nan_pl64
                mode_NE (ms_to_s n) (f64_of_Z 1000)) as HM.
  rewrite VD, Vk in HM.
  change (round_mode mode_NE) with ZnearestE in HM.
  replace (IZR n / 1000 * (1 + e1) * 1000) with (IZR n * (1 + e1)) in HM by field.
  rewrite R2 in HM.
  rewrite Rlt_bool_true in HM.
  2:{ apply Rlt_trans with (2 := Hbig).
      assert (A1 : 0 < IZR n * (1 + e1) <= 2 * IZR n) by (split; nra).
      assert (A2 : 0 < IZR n * (1 + e1) * (1 + e2) <= 2 * (2 * IZR n)) by (split; nra).
      rewrite Rabs_pos_eq by lra. lra. }
  destruct HM as (VM & FM & _). rewrite FD, Fk in FM.
  unfold s_to_ms. apply round_u32_ok; [exact Hn|exact FM|].
  change (b64_mult mode_NE (ms_to_s n) (f64_of_Z 1000))
    with (Bmult 53 1024 eq_refl eq_refl binop_nan_pl64 mode_NE (ms_to_s n) (f64_of_Z 1000)).
  rewrite VM.
  replace (IZR n * (1 + e1) * (1 + e2) - IZR n) with (IZR n * (e1 + e2 + e1 * e2)) by ring.
  rewrite Rabs_mult. rewrite (Rabs_pos_eq (IZR n)) by lra.
  assert (Hs : Rabs (e1 + e2 + e1 * e2) <= 3 * bpow radix2 (-53)).
  { apply Rle_trans with (1 := Rabs_triang _ _).
    apply Rle_trans with (Rabs e1 + Rabs e2 + Rabs (e1 * e2)).
    - apply Rplus_le_compat_r. apply Rabs_triang.
    - rewrite Rabs_mult. pose proof (Rabs_pos e1). pose proof (Rabs_pos e2). nra. }
  pose proof bpow_m53_small as Hb. pose proof (bpow_gt_0 radix2 (-53)) as Hp.
  pose proof (Rabs_pos (e1 + e2 + e1 * e2)). nra.
Qed.

Theorem C57_ms_round_trip : forall n, (0 <= n < 2 ^ 32)%Z -> s_to_ms (ms_to_s n) = n.
Proof. exact ms_round_trip. Qed.
Print Assumptions C57_ms_round_trip.

Example C57_case : s_to_ms (ms_to_s 70001) = 70001%Z /\
  b64_compare (ms_to_s 70000) (ms_to_s 70001) = Some Lt.
Proof. split; vm_compute; reflexivity. Qed.

(** [round_u32] in terms of real numbers. *)
Lemma round_u32_floor x : is_finite 53 1024 x = true ->
  round_u32 x = Z.max 0 (Z.min (Zfloor (B2R 53 1024 x + / 2)) (2 ^ 32 - 1)).
Proof.
  intros Hf. destruct x as [s| | |s m e H]; try discriminate Hf.
  - cbn [B2R round_u32]. rewrite (Zfloor_imp 0); [reflexivity|].
    change (0 + 1)%Z with 1%Z. lra.
  - cbn [B2R]. unfold F2R. cbn [Fnum Fexp].
    assert (Hb : 0 < bpow radix2 e) by apply bpow_gt_0.
    destruct s; cbn [cond_Zopp round_u32].
    + assert (Hm : IZR (- Z.pos m) < 0) by (apply IZR_lt; lia).
      assert (Hp : IZR (- Z.pos m) * bpow radix2 e < 0) by nra.
      assert (G : (Zfloor (IZR (- Z.pos m) * bpow radix2 e + / 2) < 1)%Z).
      { apply lt_IZR. apply Rle_lt_trans with (1 := Zfloor_lb _). lra. }
      lia.
    + assert (E : Zfloor (IZR (Z.pos m) * bpow radix2 e + / 2) =
        if (0 <=? e)%Z then (Z.pos m * 2 ^ e)%Z else ((2 * Z.pos m + 2 ^ (- e)) / (2 * 2 ^ (- e)))%Z).
      { destruct (Z.leb_spec 0 e) as [He|He].
        - apply Zfloor_imp. rewrite bpow_2, <- mult_IZR by lia. rewrite plus_IZR.
          generalize (IZR (Z.pos m * 2 ^ e)). intros; lra.
        - rewrite <- Zfloor_div.
          2:{ assert (0 < 2 ^ (- e))%Z by (apply Z.pow_pos_nonneg; lia). lia. }
          f_equal. set (d := (2 ^ (- e))%Z).
          assert (Hd : (0 < d)%Z) by (apply Z.pow_pos_nonneg; lia).
          assert (Hbd : bpow radix2 e = / IZR d).
          { unfold d. rewrite <- bpow_2 by lia. rewrite <- bpow_opp. f_equal. lia. }
          rewrite Hbd, plus_IZR, !mult_IZR. field. apply IZR_neq. lia. }
      rewrite E.
      assert (0 <= if 0 <=? e then Z.pos m * 2 ^ e else (2 * Z.pos m + 2 ^ (- e)) / (2 * 2 ^ (- e)))%Z.
      { destruct (Z.leb_spec 0 e).
        - apply Z.mul_nonneg_nonneg; [lia|]. apply Z.pow_nonneg; lia.
        - assert (0 < 2 ^ (- e))%Z by (apply Z.pow_pos_nonneg; lia). apply Z.div_pos; lia. }
      lia.
Qed.

(** Saving keeps the order of the time stamps (and never reorders events). The bound is far above
    any running time: 2^1000 seconds. *)
Theorem C57_ms_monotone : forall t1 t2 : binary64,
  is_finite 53 1024 t1 = true -> is_finite 53 1024 t2 = true ->
  Rabs (B2R 53 1024 t1) <= bpow radix2 1000 -> Rabs (B2R 53 1024 t2) <= bpow radix2 1000 ->
  B2R 53 1024 t1 <= B2R 53 1024 t2 -> (s_to_ms t1 <= s_to_ms t2)%Z.
Proof.
  intros t1 t2 F1 F2 B1 B2 Hle.
  destruct (f64_of_Z_ok 1000) as [Vk Fk]; [lia|].
  assert (HM : forall t, is_finite 53 1024 t = true -> Rabs (B2R 53 1024 t) <= bpow radix2 1000 ->
    B2R 53 1024 (b64_mult mode_NE t (f64_of_Z 1000)) = rnd (B2R 53 1024 t * 1000) /\
    is_finite 53 1024 (b64_mult mode_NE t (f64_of_Z 1000)) = true).
  { intros t Ft Bt.
    pose proof (Bmult_correct 53 1024 (eq_refl : (0 < 53)%Z) (eq_refl : (53 < 1024)%Z) binop_nan_pl64
                mode_NE t (f64_of_Z 1000)) as HM.
    rewrite Vk in HM. change (round_mode mode_NE) with ZnearestE in HM.
    rewrite Rlt_bool_true in HM.
    - destruct HM as (VM & FM & _). rewrite Ft, Fk in FM. split; [exact VM|exact FM].
    - apply Rle_lt_trans with (bpow radix2 1010); [|apply bpow_lt; lia].
      apply abs_round_le_generic; [apply fexp_correct; reflexivity|apply valid_rnd_N| |].
      + apply generic_format_bpow. unfold SpecFloat.fexp, SpecFloat.emin. lia.
      + rewrite Rabs_mult, (Rabs_pos_eq 1000) by lra.
        change 1010%Z with (1000 + 10)%Z. rewrite bpow_plus.
        apply Rmult_le_compat; try lra; [apply Rabs_pos|]. simpl. lra. }
  destruct (HM t1 F1 B1) as [V1 G1]. destruct (HM t2 F2 B2) as [V2 G2].
  unfold s_to_ms. rewrite !round_u32_floor by auto. rewrite V1, V2.
  assert (Hr : rnd (B2R 53 1024 t1 * 1000) <= rnd (B2R 53 1024 t2 * 1000)).
  { apply round_le; [apply fexp_correct; reflexivity|apply valid_rnd_N|]. lra. }
  assert (Hz : (Zfloor (rnd (B2R 53 1024 t1 * 1000) + / 2) <= Zfloor (rnd (B2R 53 1024 t2 * 1000) + / 2))%Z).
  { apply Zfloor_le. lra. }
  lia.
Qed.
Print Assumptions C57_ms_monotone.
