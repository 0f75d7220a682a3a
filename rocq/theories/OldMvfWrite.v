(** * OldMvfWrite: every record can be written under every key (C66). *)
From Coq Require Import Permutation.
From Verif Require Import Base Spec BaseFacts LayMine LayMineProofs MineBoard Evf EvfSpec EvfProofs EvfSafe LinFacts OldVideos OldSpec OldLib OldMvfKey.
Open Scope Z_scope.
#[local] Opaque key_order.

Lemma bits_cons f start n : bits_value f start (S n) = Z.b2z (f start) + 2 * bits_value f (S start) n.
Proof. reflexivity. Qed.
Lemma bits_test f : forall n start i, (i < n)%nat -> Z.testbit (bits_value f start n) (Z.of_nat i) = f (start + i)%nat.
Proof.
  induction n as [|n IH]; intros start i Hi; [lia|]. rewrite bits_cons. destruct i as [|i].
  - rewrite Nat.add_0_r, Z.add_comm. change (Z.of_nat 0) with 0. destruct (f start); cbn [Z.b2z]; [apply Z.testbit_odd_0|rewrite Z.add_0_r; apply Z.testbit_even_0].
  - rewrite Nat2Z.inj_succ. replace (start + S i)%nat with (S start + i)%nat by lia. rewrite <- IH by lia. rewrite Z.add_comm. destruct (f start); cbn [Z.b2z]; [apply Z.testbit_odd_succ; lia|rewrite Z.add_0_r; apply Z.testbit_even_succ; lia].
Qed.
Lemma bits_range f start n : 0 <= bits_value f start n < 2 ^ Z.of_nat n.
Proof. apply bits_snoc. Qed.
Lemma bits_ext f g start n : (forall i, (i < n)%nat -> f (start + i)%nat = g (start + i)%nat) -> bits_value f start n = bits_value g start n.
Proof.
  revert start. induction n as [|n IH]; intros start H; [reflexivity|]. rewrite !bits_cons. f_equal; [f_equal; specialize (H 0%nat); rewrite Nat.add_0_r in H; apply H; lia|]. f_equal. apply IH. intros i Hi. replace (S start + i)%nat with (start + S i)%nat by lia. apply H. lia.
Qed.
Lemma bits_of v n : 0 <= v < 2 ^ Z.of_nat n -> forall start, bits_value (fun k => Z.testbit v (Z.of_nat (k - start))) start n = v.
Proof.
  intros Hv start. apply Z.bits_inj'. intros i Hi. destruct (Z.ltb_spec i (Z.of_nat n)) as [L|L].
  - rewrite <- (Z2Nat.id i) by lia. rewrite bits_test by lia. f_equal. lia.
  - assert (X : forall w, 0 <= w < 2 ^ Z.of_nat n -> Z.testbit w i = false).
    { intros w Hw. destruct (Z.eq_dec w 0) as [->|N]; [apply Z.bits_0|]. apply Z.bits_above_log2; [lia|]. apply Z.log2_lt_pow2; [lia|]. apply (Z.lt_le_trans _ (2 ^ Z.of_nat n)); [lia|apply Z.pow_le_mono_r; lia]. }
    rewrite !X; auto. apply bits_range.
Qed.
(** five bytes from 40 bits *)
Definition record_of (g : nat -> bool) : list Z := map (fun i => bits_value g (8 * i) 8) (seq 0 5).
Lemma record_length g : length (record_of g) = 5%nat. Proof. unfold record_of. now rewrite map_length, seq_length. Qed.
Lemma record_bytes g : bytes (record_of g).
Proof. unfold record_of, bytes. apply Forall_forall. intros x Hx. apply in_map_iff in Hx as (i & <- & _). pose proof (bits_range g (8 * i) 8) as H. change (2 ^ Z.of_nat 8) with 256 in H. unfold byte. lia. Qed.
Lemma record_bit g j : (j < 40)%nat -> Z.testbit (nth (j / 8) (record_of g) 0) (Z.of_nat (j mod 8)) = g j.
Proof.
  intros Hj. unfold record_of. assert (j / 8 < 5)%nat by (apply Nat.div_lt_upper_bound; lia). rewrite (nth_indep _ 0 (bits_value g (8 * 0) 8)) by (rewrite map_length, seq_length; lia). rewrite (map_nth (fun i => bits_value g (8 * i) 8)).
  rewrite seq_nth by lia. rewrite bits_test by (apply Nat.mod_upper_bound; lia). f_equal. cbn [Nat.add]. symmetry. apply Nat.div_mod_eq.
Qed.
Lemma record_inj r r' : bytes r -> bytes r' -> length r = 5%nat -> length r' = 5%nat -> (forall j, (j < 40)%nat -> Z.testbit (nth (j / 8) r 0) (Z.of_nat (j mod 8)) = Z.testbit (nth (j / 8) r' 0) (Z.of_nat (j mod 8))) -> r = r'.
Proof.
  intros Hb Hb' L L' H. apply (nth_ext r r' 0 0); [congruence|]. intros i Hi. apply Z.bits_inj'. intros n Hn.
  assert (B : forall x, In x r \/ In x r' -> byte x). { intros x [Hx|Hx]; [unfold bytes in Hb; rewrite Forall_forall in Hb; auto|unfold bytes in Hb'; rewrite Forall_forall in Hb'; auto]. }
  destruct (Z.ltb_spec n 8) as [Ln|Ln].
  - specialize (H (8 * i + Z.to_nat n)%nat). replace ((8 * i + Z.to_nat n) / 8)%nat with i in H by (apply Nat.div_unique with (Z.to_nat n); lia). replace ((8 * i + Z.to_nat n) mod 8)%nat with (Z.to_nat n) in H by (apply Nat.mod_unique with i; lia). rewrite Z2Nat.id in H by lia. apply H. lia.
  - assert (X : forall w, byte w -> Z.testbit w n = false).
    { unfold byte. intros w Hw. destruct (Z.eq_dec w 0) as [->|N]; [apply Z.bits_0|]. apply Z.bits_above_log2; [lia|]. apply Z.log2_lt_pow2; [lia|]. apply (Z.lt_le_trans _ (2 ^ 8)); [lia|apply Z.pow_le_mono_r; lia]. }
    rewrite !X; [reflexivity| |]; apply B; [right|left]; apply nth_In; lia.
Qed.
Section Key.
Variable s : list Z.
Hypothesis K : is_key s.
Lemma order_nth k : (k < 40)%nat -> (nth k (key_order s) 0 < 40)%nat. Proof. apply (key_order_lt K). Qed.
Lemma order_inj k k' : (k < 40)%nat -> (k' < 40)%nat -> nth k (key_order s) 0%nat = nth k' (key_order s) 0%nat -> k = k'.
Proof.
  intros Hk Hk' E. assert (ND : NoDup (key_order s)) by (apply (Permutation_NoDup (Permutation_sym (key_order_perm K))), seq_NoDup). apply (proj1 (NoDup_nth (key_order s) 0%nat) ND); auto; rewrite (key_order_length K); lia.
Qed.
Lemma order_surj j : (j < 40)%nat -> exists k, (k < 40)%nat /\ nth k (key_order s) 0%nat = j.
Proof.
  intros Hj. assert (I : In j (key_order s)) by (apply (Permutation_in _ (Permutation_sym (key_order_perm K))), in_seq; lia). apply (In_nth _ _ 0%nat) in I as (k & Hk & E). rewrite (key_order_length K) in Hk. eauto.
Qed.
Definition written (f : nat -> bool) : list Z := record_of (fun j => existsb (fun k => (nth k (key_order s) 0 =? j)%nat && f k) (seq 0 40)).
Lemma written_bit f k : (k < 40)%nat -> mvf_bit s (written f) k = f k.
Proof.
  intros Hk. unfold mvf_bit. cbn zeta. unfold written. rewrite record_bit by (apply order_nth; exact Hk). destruct (f k) eqn:E.
  - apply existsb_exists. exists k. split; [apply in_seq; lia|]. now rewrite Nat.eqb_refl, E.
  - apply not_true_is_false. intros X. apply existsb_exists in X as (k' & I & X). apply in_seq in I. apply andb_true_iff in X as [X1 X2]. apply Nat.eqb_eq in X1. apply order_inj in X1; [|lia|lia]. congruence.
Qed.
Lemma bits_same r r' : bytes r -> bytes r' -> length r = 5%nat -> length r' = 5%nat -> (forall k, (k < 40)%nat -> mvf_bit s r k = mvf_bit s r' k) -> r = r'.
Proof. intros Hb Hb' L L' H. apply record_inj; auto. intros j Hj. destruct (order_surj Hj) as (k & Hk & E). specialize (H k Hk). unfold mvf_bit in H. cbn zeta in H. now rewrite E in H. Qed.

(** the bits of a record, in the order of the key; [u], [v]: the two bits nobody reads *)
Definition field_bits (m : mvf_rec) (u v : bool) (k : nat) : bool :=
  if (k =? 0)%nat then m_right m else if (k =? 1)%nat then m_mid m else if (k =? 2)%nat then m_left m
  else if (k <? 12)%nat then Z.testbit (m_y m) (Z.of_nat (k - 3)) else if (k <? 21)%nat then Z.testbit (m_x m) (Z.of_nat (k - 12))
  else if (k <? 28)%nat then Z.testbit (m_hs m) (Z.of_nat (k - 21)) else if (k <? 38)%nat then Z.testbit (m_sec m) (Z.of_nat (k - 28))
  else if (k =? 38)%nat then u else v.
Definition in_range (m : mvf_rec) : Prop := 0 <= m_x m < 512 /\ 0 <= m_y m < 512 /\ 0 <= m_hs m < 128 /\ 0 <= m_sec m < 1024.
Lemma number_bits r start n : mvf_number s r start n = bits_value (mvf_bit s r) start n. Proof. reflexivity. Qed.
Lemma number_written f start n v : (start + n <= 40)%nat -> 0 <= v < 2 ^ Z.of_nat n -> (forall i, (i < n)%nat -> f (start + i)%nat = Z.testbit v (Z.of_nat i)) -> mvf_number s (written f) start n = v.
Proof.
  intros Hn Hv H. rewrite number_bits. rewrite <- (@bits_of v n Hv start) at 1. apply bits_ext. intros i Hi. rewrite written_bit by lia. rewrite H by exact Hi. f_equal. lia.
Qed.
Lemma write_record m u v : in_range m -> exists r, bytes r /\ length r = 5%nat /\ mvf_decode s r = m /\ mvf_bit s r 38 = u /\ mvf_bit s r 39 = v.
Proof.
  intros (Hx & Hy & Hh & Hs). exists (written (field_bits m u v)). split; [apply record_bytes|]. split; [apply record_length|]. split; [|split; rewrite written_bit by lia; reflexivity].
  unfold mvf_decode. rewrite !written_bit by lia. rewrite (@number_written _ 3 9 (m_y m)), (@number_written _ 12 9 (m_x m)), (@number_written _ 21 7 (m_hs m)), (@number_written _ 28 10 (m_sec m)); try lia;
    try (intros i Hi; unfold field_bits; repeat match goal with |- context [if ?c then _ else _] => let E := fresh in destruct c eqn:E; try lia end; f_equal; lia).
  destruct m; reflexivity.
Qed.
Lemma decode_range r : in_range (mvf_decode s r).
Proof.
  unfold in_range, mvf_decode. cbn [m_x m_y m_hs m_sec]. rewrite !number_bits. pose proof (bits_range (mvf_bit s r) 12 9). pose proof (bits_range (mvf_bit s r) 3 9). pose proof (bits_range (mvf_bit s r) 21 7). pose proof (bits_range (mvf_bit s r) 28 10).
  change (2 ^ Z.of_nat 9) with 512 in *. change (2 ^ Z.of_nat 7) with 128 in *. change (2 ^ Z.of_nat 10) with 1024 in *. lia.
Qed.
Lemma decode_inj r r' : bytes r -> bytes r' -> length r = 5%nat -> length r' = 5%nat -> mvf_decode s r = mvf_decode s r' -> mvf_bit s r 38 = mvf_bit s r' 38 -> mvf_bit s r 39 = mvf_bit s r' 39 -> r = r'.
Proof.
  intros Hb Hb' L L' E E38 E39. apply bits_same; auto. unfold mvf_decode in E. injection E as E0 E1 E2 Ey Ex Eh Es. rewrite !number_bits in *.
  assert (F : forall start n k, (start <= k < start + n)%nat -> bits_value (mvf_bit s r) start n = bits_value (mvf_bit s r') start n -> mvf_bit s r k = mvf_bit s r' k).
  { intros start n k Hk E. replace k with (start + (k - start))%nat by lia. rewrite <- !(@bits_test _ n) by lia. now rewrite E. }
  intros k Hk. assert (C : k = 0%nat \/ k = 1%nat \/ k = 2%nat \/ (3 <= k < 3 + 9)%nat \/ (12 <= k < 12 + 9)%nat \/ (21 <= k < 21 + 7)%nat \/ (28 <= k < 28 + 10)%nat \/ k = 38%nat \/ k = 39%nat) by lia.
  destruct C as [->|[->|[->|[C|[C|[C|[C|[->| ->]]]]]]]]; auto; eapply F; eauto.
Qed.
End Key.
