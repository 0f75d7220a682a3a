(** * PropsBigNum: C46, the binomial coefficients in f64 arithmetic. *)
From Coq Require Import ZArith Reals Lia Lra Bool List.
From Flocq Require Import Core IEEE754.BinarySingleNaN IEEE754.Binary IEEE754.Bits.
From Verif Require Import Base Spec LayMine SolverSpec Utils UtilsProofs FloatTime FloatQuot FloatTrace BigNum FloatNear BigNumProofs BigBinom.
Import ListNotations.
Open Scope R_scope.
Local Notation val := (B2R 53 1024).

(** the number a * 10^b that a [BigNumber] stands for *)
Definition big_value (x : big) : Rdefinitions.R := val (mant x) * bpow radix10 (ex x).

Lemma near_rel n a x : near n a x -> (Z.of_nat n <= 2 ^ 40)%Z -> Rabs (val x - a) <= a * (INR n * bpow radix2 (-51)).
Proof.
  intros N H. destruct (w_lin H) as [W _]. pose proof (near_pos N) as A0. pose proof (nr_lo N) as L. pose proof (nr_hi N) as U. pose proof (nr_pos N) as V0. pose proof (w_pow n) as W1.
  set (e := INR n * bpow radix2 (-51)) in *. assert (E0 : 0 <= e) by (unfold e; apply Rmult_le_pos; [apply pos_INR|apply bpow_ge_0]).
  apply Rabs_le. split.
  - (* a <= v w^n <= v (1 + e); v >= a (1 - e) *)
    assert (a <= val x * (1 + e)) by (apply Rle_trans with (1 := L); apply Rmult_le_compat_l; auto).
    assert (a * (1 - e) * (1 + e) <= val x * (1 + e)) by nra. apply Rmult_le_reg_r in H1; lra.
  - assert (val x <= a * (1 + e)) by (apply Rle_trans with (1 := U); apply Rmult_le_compat_l; auto). lra.
Qed.
Lemma stands_rel M v x : stands M v x -> (Z.of_nat M + ex x <= 2 ^ 40)%Z -> Rabs (big_value x - v) <= v * (INR (M + Z.to_nat (ex x)) * bpow radix2 (-51)).
Proof.
  intros [N E V] H. pose proof (near_rel N ltac:(lia)) as R. unfold big_value. fold (p10 (ex x)). pose proof (p10_pos (ex x)) as P.
  replace (val (mant x) * p10 (ex x) - v) with ((val (mant x) - v / p10 (ex x)) * p10 (ex x)) by (field; lra).
  rewrite Rabs_mult, (Rabs_right (p10 (ex x))) by lra.
  apply Rle_trans with (v / p10 (ex x) * (INR (M + Z.to_nat (ex x)) * bpow radix2 (-51)) * p10 (ex x)); [apply Rmult_le_compat_r; lra|].
  right. field. lra.
Qed.

(** C(n, k) for the subsets of a list of n < 2^31 elements: a normalized number a * 10^b, 1 <= a < 10, whose
    relative error is at most n * 2^-50; the exponent fits an i32. *)
Theorem C46_C_float : forall (A : Type) (l : list A) k, (k <= length l)%nat -> (Z.of_nat (length l) < 2 ^ 31)%Z ->
  exists c, C_big 1 (length l) k = Ok c /\ is_finite 53 1024 (mant c) = true /\ 1 <= val (mant c) < 10 /\ (0 <= ex c < 2 ^ 31)%Z /\
    let N := INR (count (fun s => (length s =? k)%nat) (subs l)) in
    Rabs (big_value c - N) <= N * (INR (length l) * bpow radix2 (-50)).
Proof.
  intros A l k Hk Hl. set (n := length l) in *.
  destruct (@C_big_ok n k (Z.of_nat n) Hk) as (c & E & Sc & V & X).
  - apply Z.le_trans with (2 ^ 31)%Z; [lia|vm_compute; discriminate].
  - split; [lia|]. apply Z.le_trans with (2 ^ 31)%Z; [lia|vm_compute; discriminate].
  - intros j _. apply binom_p10.
  - exists c. pose proof (sd_ex Sc) as E0. split; [exact E|]. split; [exact (nr_fin (sd_near Sc))|]. split; [exact V|]. split; [lia|].
    cbv zeta. rewrite binom_counts. fold n.
    assert (F : (Z.of_nat n + ex c <= 2 ^ 40)%Z). { apply Z.le_trans with (2 ^ 31 + 2 ^ 31)%Z; [lia|vm_compute; discriminate]. }
    apply Rle_trans with (1 := stands_rel Sc F). apply Rmult_le_compat_l; [apply pos_INR|].
    replace (bpow radix2 (-50)) with (2 * bpow radix2 (-51)) by (change 2 with (bpow radix2 1); rewrite <- bpow_plus; reflexivity).
    rewrite <- Rmult_assoc. apply Rmult_le_compat_r; [apply bpow_ge_0|]. rewrite plus_INR.
    assert (INR (Z.to_nat (ex c)) <= INR n) by (apply le_INR; lia). lra.
Qed.
Print Assumptions C46_C_float.
Theorem C46_C_float_panics : forall n k, (n < k)%nat -> C_big 1 n k = Panic.
Proof. intros. now apply C_big_panic. Qed.
Print Assumptions C46_C_float_panics.
(** C(9, 7) = 3.6 * 10^1 *)
Example C46_float_case :
  match C_big 1 9 7 with Ok c => andb (bits_of_b64 (mant c) =? bits_of_b64 (fdiv (f64_of_Z 36) (f64_of_Z 10)))%Z (ex c =? 1)%Z | _ => false end = true.
Proof. vm_compute. reflexivity. Qed.
(** and C(300, 150) = 9.375... * 10^88 *)
Example C46_float_case_2 :
  match C_big 1 300 150 with Ok c => andb (f_lt (mant c) (fdiv (f64_of_Z 9376) (f64_of_Z 1000))) (andb (f_lt (fdiv (f64_of_Z 9375) (f64_of_Z 1000)) (mant c)) (ex c =? 88)%Z) | _ => false end = true.
Proof. vm_compute. reflexivity. Qed.
