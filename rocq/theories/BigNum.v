(** * BigNum: model of [BigNumber] and of [C] with their f64 arithmetic (utils.rs 641-733), IEEE binary64
    (Flocq). The exponent is an i32 in the code; overflow of i32 is not modelled (the theorems show that
    the exponents stay small). *)
From Coq Require Import ZArith.
From Flocq Require Import Core IEEE754.BinarySingleNaN IEEE754.Binary IEEE754.Bits.
From Verif Require Import Base LayMine Features FloatTime.

(** utils.rs 643-648: the number a * 10^b *)
Record big := Big { mant : binary64; ex : Z }.
Definition f_zero : binary64 := f64_of_Z 0.
Definition f_one : binary64 := f64_of_Z 1.
Definition f_ten : binary64 := f64_of_Z 10.
Definition f_lt (a b : binary64) : bool := match b64_compare a b with Some Lt => true | _ => false end.
Definition f_ge (a b : binary64) : bool := match b64_compare a b with Some Gt | Some Eq => true | _ => false end.
Definition fmul : binary64 -> binary64 -> binary64 := b64_mult mode_NE.
Definition fdiv : binary64 -> binary64 -> binary64 := b64_div mode_NE.
Definition fadd : binary64 -> binary64 -> binary64 := b64_plus mode_NE.
(** [k as f64] of a usize *)
Definition f_of (k : nat) : binary64 := f64_of_Z (Z.of_nat k).
Definition big_zero : big := Big f_zero 0.
Definition big_one : big := Big f_one 0.

(** utils.rs 657-660: the loop; an infinite [a] never gets small, the fuel is more than any finite one needs. *)
Fixpoint scale (fuel : nat) (x : big) : R big :=
  if f_ge (mant x) f_ten then
    match fuel with
    | O => OutOfFuel
    | S f => scale f (Big (fdiv (mant x) f_ten) (ex x + 1))
    end
  else Ok x.
Definition SCALE_FUEL : nat := 400.
(** utils.rs 651-661 *)
Definition become_smaller_than (x : big) (thrd : binary64) : R big :=
  if f_lt (mant x) thrd then Ok x else scale SCALE_FUEL x.
(** utils.rs 662-671 *)
Definition mul_usize (x : big) (k : nat) : R big :=
  if (k =? 0)%nat then Ok (Big f_zero 1)
  else become_smaller_than (Big (fmul (mant x) (f_of k)) (ex x)) f_ten.
(** utils.rs 672-677 *)
Definition mul_big_number (x k : big) : R big :=
  become_smaller_than (Big (fmul (mant x) (mant k)) (ex x + ex k)) f_ten.
(** [n] divisions (multiplications) by 10 *)
Definition div10 (n : nat) (a : binary64) : binary64 := Nat.iter n (fun a => fdiv a f_ten) a.
Definition mul10 (n : nat) (a : binary64) : binary64 := Nat.iter n (fun a => fmul a f_ten) a.
(** utils.rs 678-691: the loops run [self.b - kb] times, [kb - self.b] times *)
Definition add_big_number (x k : big) : R big :=
  let ka := div10 (Z.to_nat (ex x - ex k)) (mant k) in
  let kb := Z.max (ex x) (ex k) in
  let xa := div10 (Z.to_nat (ex k - ex x)) (mant x) in
  become_smaller_than (Big (fadd xa ka) kb) f_ten.
(** utils.rs 692-704 *)
Definition div_big_num (x k : big) : binary64 :=
  mul10 (Z.to_nat (ex x - ex k)) (div10 (Z.to_nat (ex k - ex x)) (fdiv (mant x) (mant k))).

(** utils.rs 724: the literal 1e208 *)
Definition f_1e208 : binary64 := f64_of_Z (10 ^ 208).
(** utils.rs 719-733. [fuel] bounds the recursion C(n, n-k), at most one level. *)
Fixpoint C_big (fuel n k : nat) : R big :=
  if (n <? k + k)%nat then
    match fuel with
    | O => OutOfFuel
    | S f => let* d := usub n k in C_big f n d
    end
  else
    let* c := foldM (fun c i => let* m := usub n i in
                       become_smaller_than (Big (fdiv (fmul (mant c) (f_of m)) (f_of (i + 1))) (ex c)) f_1e208)
                    (seq 0 k) big_one in
    become_smaller_than c f_ten.
