(** * OldMvfKey: the key of an mvf file and the records it encodes. *)
From Coq Require Import Permutation.
From Verif Require Import Base Spec BaseFacts LayMine LayMineProofs MineBoard Evf EvfSpec EvfProofs EvfSafe LinFacts OldVideos OldSpec OldLib.
Open Scope Z_scope.

(** ** decimal digits *)
Definition pad (k : nat) (n : Z) : list Z := map (fun i => n / 10 ^ (Z.of_nat k - 1 - Z.of_nat i) mod 10) (seq 0 k).
Lemma pad_S k n : 0 <= n -> pad (S k) n = pad k (n / 10) ++ [n mod 10].
Proof.
  intros Hn. unfold pad. rewrite seq_S, map_app. cbn [map Nat.add]. f_equal.
  - apply map_ext_in. intros i Hi. apply in_seq in Hi. rewrite Z.div_div by (try apply Z.pow_pos_nonneg; lia). rewrite <- (Z.pow_succ_r 10) by lia. do 3 f_equal. lia.
  - f_equal. replace (Z.of_nat (S k) - 1 - Z.of_nat k) with 0 by lia. now rewrite Z.pow_0_r, Z.div_1_r.
Qed.
Lemma pad_0 k : pad k 0 = repeat 0 k.
Proof. induction k as [|k IH]; [reflexivity|]. rewrite pad_S by lia. cbn [Z.div Z.div_eucl]. rewrite IH. change (0 mod 10) with 0. now rewrite <- repeat_cons. Qed.
Lemma dec_digits_length f n : forall k, 0 <= n < 10 ^ Z.of_nat k -> (1 <= k)%nat -> (length (dec_digits f n) <= k)%nat.
Proof.
  revert n. induction f as [|f IH]; intros n k Hn Hk; [cbn; lia|]. cbn [dec_digits]. destruct (Z.ltb_spec n 10); [cbn; lia|]. rewrite app_length. cbn [length].
  destruct k as [|[|k]]; [lia|change (10 ^ Z.of_nat 1) with 10 in Hn; lia|]. assert (length (dec_digits f (n / 10)) <= S k)%nat; [|lia]. apply IH; [|lia]. split; [apply Z.div_pos; lia|].
  apply Z.div_lt_upper_bound; [lia|]. rewrite <- Z.pow_succ_r by lia. replace (Z.succ (Z.of_nat (S k))) with (Z.of_nat (S (S k))) by lia. lia.
Qed.
Lemma dec_pad k : forall f n, 0 <= n < 10 ^ Z.of_nat k -> (1 <= k <= f)%nat -> repeat 0 (k - length (dec_digits f n)) ++ dec_digits f n = pad k n.
Proof.
  induction k as [|k IH]; intros f n Hn Hk; [lia|]. destruct f as [|f]; [lia|]. rewrite pad_S by lia. cbn [dec_digits]. destruct (Z.ltb_spec n 10) as [Hlt|Hge].
  - cbn [length]. rewrite (Z.div_small n 10), (Z.mod_small n 10) by lia. rewrite pad_0. now replace (S k - 1)%nat with k by lia.
  - destruct k as [|k]; [change (10 ^ Z.of_nat 1) with 10 in Hn; lia|]. assert (Hb : 0 <= n / 10 < 10 ^ Z.of_nat (S k)).
    { split; [apply Z.div_pos; lia|]. apply Z.div_lt_upper_bound; [lia|]. rewrite <- Z.pow_succ_r by lia. replace (Z.succ (Z.of_nat (S k))) with (Z.of_nat (S (S k))) by lia. lia. }
    rewrite <- (IH f (n / 10) Hb ltac:(lia)). rewrite app_length. cbn [length]. rewrite app_assoc. f_equal. f_equal. f_equal. lia.
Qed.
Lemma fmt_eight n : 0 <= n <= 10 ^ 8 -> firstn 8 (fmt08 n) = eight n.
Proof.
  intros Hn. unfold eight. destruct (Z.eqb_spec n (10 ^ 8)) as [->|N]; [reflexivity|]. unfold fmt08. rewrite (@dec_pad 8 20 n) by (try change (10 ^ Z.of_nat 8) with (10 ^ 8); lia).
  rewrite firstn_all2 by (unfold pad; rewrite map_length, seq_length; lia). reflexivity.
Qed.
Lemma eight_digits n : 0 <= n -> length (eight n) = 8%nat /\ Forall (fun c => 0 <= c <= 9) (eight n).
Proof.
  intros Hn. unfold eight. destruct (n =? 10 ^ 8); [split; [reflexivity|]; repeat (constructor; [lia|]); constructor|]. split; [now rewrite map_length, seq_length|].
  apply Forall_forall. intros c Hc. apply in_map_iff in Hc as (i & <- & _). pose proof (Z.mod_pos_bound (n / 10 ^ (7 - Z.of_nat i)) 10). lia.
Qed.
(** five numbers between 0 and 10^8 *)
Definition five_numbers (l : list Z) : Prop := length l = 5%nat /\ Forall (fun n => 0 <= n <= 10 ^ 8) l.
Definition is_key (s : list Z) : Prop := length s = 40%nat /\ Forall (fun c => 0 <= c <= 9) s.
Lemma key_digits_ok magic leading : five_numbers (magic leading) -> key_digits magic leading = mvf_key (magic leading).
Proof.
  intros [_ H]. unfold key_digits, mvf_key. f_equal. apply map_ext_in. intros n Hn. apply fmt_eight. rewrite Forall_forall in H. auto.
Qed.
Lemma mvf_key_ok l : five_numbers l -> is_key (mvf_key l).
Proof.
  intros [L H]. unfold mvf_key, is_key. assert (G : length (concat (map eight l)) = (8 * length l)%nat /\ Forall (fun c => 0 <= c <= 9) (concat (map eight l))); [|rewrite L in G; exact G].
  clear L. induction H as [|n l Hn H [IH1 IH2]]; [split; [reflexivity|constructor]|]. destruct (@eight_digits n) as [E1 E2]; [lia|]. cbn [map concat length]. rewrite app_length. split; [lia|]. apply Forall_app. auto.
Qed.

(** ** the order of the bits *)
Lemma nodup_parts (f : nat -> Z) l : NoDup l -> forall ds, NoDup ds -> NoDup (flat_map (fun d => filter (fun j => f j =? d) l) ds).
Proof.
  intros Hl ds. induction ds as [|d ds IH]; intros Hd; [constructor|]. inversion Hd; subst. cbn [flat_map]. apply NoDup_app_disj; [now apply NoDup_filter|auto|].
  intros j Hj Hj2. apply filter_In in Hj as [_ Hj]. apply in_flat_map in Hj2 as (d' & Hd' & Hj2). apply filter_In in Hj2 as [_ Hj2]. assert (d = d') by lia. subst. contradiction.
Qed.

Definition ten : list Z := [0; 1; 2; 3; 4; 5; 6; 7; 8; 9].
Lemma key_order_perm s : is_key s -> Permutation (key_order s) (seq 0 40).
Proof.
  intros [L D]. apply NoDup_Permutation.
  - unfold key_order. apply (nodup_parts (fun j => nth j s 0)); [apply seq_NoDup|]. repeat (constructor; [cbn; lia|]). constructor.
  - apply seq_NoDup.
  - intros j. unfold key_order. rewrite in_flat_map. split.
    + intros (d & _ & H). now apply filter_In in H as [H _].
    + intros H. exists (nth j s 0). split.
      * apply in_seq in H. rewrite Forall_forall in D. specialize (D (nth j s 0) (@nth_In _ j s 0 ltac:(lia))).
        assert (E : nth j s 0 = 0 \/ nth j s 0 = 1 \/ nth j s 0 = 2 \/ nth j s 0 = 3 \/ nth j s 0 = 4 \/ nth j s 0 = 5 \/ nth j s 0 = 6 \/ nth j s 0 = 7 \/ nth j s 0 = 8 \/ nth j s 0 = 9) by lia.
        cbn [In]. intuition lia.
      * apply filter_In. split; [exact H|apply Z.eqb_refl].
Qed.
Lemma key_order_length s : is_key s -> length (key_order s) = 40%nat.
Proof. intros H. rewrite (Permutation_length (key_order_perm H)). apply seq_length. Qed.
Lemma key_order_lt s k : is_key s -> (k < 40)%nat -> (nth k (key_order s) 0 < 40)%nat.
Proof.
  intros H Hk. assert (I : In (nth k (key_order s) 0%nat) (seq 0 40)). { apply (Permutation_in _ (key_order_perm H)). apply nth_In. rewrite key_order_length by exact H. exact Hk. }
  apply in_seq in I. lia.
Qed.

(** ** the tables *)
Definition tab_byte (o : list nat) : list nat := map (fun j => (j / 8)%nat) o ++ repeat 0%nat (40 - length o).
Definition tab_bit (o : list nat) : list Z := map (fun j => Z.shiftl 1 (Z.of_nat (j mod 8))) o ++ repeat 0 (40 - length o).
Lemma vset_tab {A} (f : nat -> A) (z : A) o j : (length o < 40)%nat -> vset (map f o ++ repeat z (40 - length o)) (length o) (f j) = Ok (map f (o ++ [j]) ++ repeat z (40 - length (o ++ [j]))).
Proof.
  intros H. unfold vset. rewrite app_length, map_length, repeat_length. replace (length o <? length o + (40 - length o))%nat with true by (symmetry; apply Nat.ltb_lt; lia). f_equal.
  rewrite app_length, map_app, <- app_assoc. cbn [length map app]. replace (40 - length o)%nat with (S (40 - (length o + 1))) by lia. cbn [repeat].
  replace (length o) with (length (map f o)) by apply map_length. generalize (repeat z (40 - (length (map f o) + 1))) as r. generalize (map f o) as l. intros l r. induction l as [|a l IH]; [reflexivity|]. cbn. now rewrite IH.
Qed.
Lemma key_steps s l : length s = 40%nat -> Forall (fun ij => (snd ij < 40)%nat) l -> forall o,
  let o' := o ++ map snd (filter (fun ij : Z * nat => nth (snd ij) s 0 =? fst ij) l) in (length o' <= 40)%nat ->
  foldM (key_step s) l (tab_byte o, tab_bit o, length o) = Ok (tab_byte o', tab_bit o', length o').
Proof.
  intros L. induction 1 as [|[i j] l Hj Hl IH]; intros o.
  - cbn. rewrite app_nil_r. reflexivity.
  - cbn [filter fst snd]. cbn [snd] in Hj. cbn [foldM]. unfold key_step at 1. rewrite (@vget_ok _ s j 0) by lia. cbn [bind]. destruct (nth j s 0 =? i) eqn:E.
    + cbn [map snd]. intros Hlen. rewrite app_length in Hlen. cbn [length] in Hlen. unfold tab_byte at 1, tab_bit at 1. rewrite (@vset_tab nat (fun j => (j / 8)%nat) 0%nat o j) by lia. cbn [bind].
      rewrite (@vset_tab Z (fun j => Z.shiftl 1 (Z.of_nat (j mod 8))) 0 o j) by lia. cbn [bind].
      specialize (IH (o ++ [j])). cbn zeta in IH. rewrite <- app_assoc in IH. cbn [app] in IH. replace (length o + 1)%nat with (length (o ++ [j])) by (rewrite app_length; reflexivity). apply IH.
      rewrite app_length. cbn [length]. lia.
    + apply IH.
Qed.
Lemma order_pairs s ds : map snd (filter (fun ij : Z * nat => nth (snd ij) s 0 =? fst ij) (flat_map (fun i => map (fun j => (i, j)) (seq 0 40)) ds)) = flat_map (fun d => filter (fun j => nth j s 0 =? d) (seq 0 40)) ds.
Proof.
  induction ds as [|d ds IH]; [reflexivity|]. cbn [flat_map]. rewrite filter_app, map_app, IH. f_equal. generalize (seq 0 40) as l. induction l as [|j l IHl]; [reflexivity|]. cbn [map filter snd fst].
  destruct (nth j s 0 =? d); cbn [map snd]; now rewrite IHl.
Qed.
Lemma order_key s : map snd (filter (fun ij : Z * nat => nth (snd ij) s 0 =? fst ij) (flat_map (fun i => map (fun j => (i, j)) (seq 0 40)) [0; 1; 2; 3; 4; 5; 6; 7; 8; 9])) = key_order s.
Proof. exact (order_pairs s [0; 1; 2; 3; 4; 5; 6; 7; 8; 9]). Qed.
Lemma key_run s l o' : length s = 40%nat -> Forall (fun ij => (snd ij < 40)%nat) l -> map snd (filter (fun ij : Z * nat => nth (snd ij) s 0 =? fst ij) l) = o' -> length o' = 40%nat ->
  (let* (byte, bit, _) := foldM (key_step s) l (repeat 0%nat 40, repeat 0 40, 0%nat) in Ok (byte, bit)) = Ok (map (fun j => (j / 8)%nat) o', map (fun j => Z.shiftl 1 (Z.of_nat (j mod 8))) o').
Proof.
  intros L F <- Ho. pose proof (@key_steps s l L F []) as H. cbn zeta in H. cbn [app] in H. rewrite Ho in H.
  change (foldM (key_step s) l (repeat 0%nat 40, repeat 0 40, 0%nat)) with (foldM (key_step s) l (tab_byte [], tab_bit [], length (@nil nat))). rewrite H by lia. cbn [bind].
  unfold tab_byte, tab_bit. rewrite Ho. cbn [Nat.sub repeat]. now rewrite !app_nil_r.
Qed.
Lemma key_pairs_lt ds : Forall (fun ij : Z * nat => (snd ij < 40)%nat) (flat_map (fun i => map (fun j => (i, j)) (seq 0 40)) ds).
Proof. apply Forall_forall. intros [i j] I. apply in_flat_map in I as (d & _ & I). apply in_map_iff in I as (j' & E & I). apply in_seq in I. injection E as _ <-. cbn [snd]. lia. Qed.
Lemma key_table_ok s : is_key s -> key_table s = Ok (map (fun j => (j / 8)%nat) (key_order s), map (fun j => Z.shiftl 1 (Z.of_nat (j mod 8))) (key_order s)).
Proof. intros K. unfold key_table. apply key_run; [exact (proj1 K)|apply key_pairs_lt|apply order_key|exact (key_order_length K)]. Qed.

#[local] Opaque key_order.
(** ** records *)
Definition bits_value (f : nat -> bool) (start n : nat) : Z := fold_right (fun k acc => Z.b2z (f k) + 2 * acc) 0 (seq start n).
Lemma bits_snoc f start n : bits_value f start (S n) = bits_value f start n + Z.b2z (f (start + n)%nat) * 2 ^ Z.of_nat n /\ 0 <= bits_value f start n < 2 ^ Z.of_nat n.
Proof.
  revert start. induction n as [|n IH]; intros start.
  - cbn [bits_value seq fold_right]. unfold bits_value. cbn [seq fold_right]. rewrite Nat.add_0_r. change (2 ^ Z.of_nat 0) with 1. lia.
  - destruct (IH (S start)) as [E B]. unfold bits_value in *. change (seq start (S (S n))) with (start :: seq (S start) (S n)). change (seq start (S n)) with (start :: seq (S start) n). cbn [fold_right].
    rewrite E. replace (S start + n)%nat with (start + S n)%nat by lia. replace (Z.of_nat (S n)) with (Z.succ (Z.of_nat n)) by lia. rewrite Z.pow_succ_r by lia.
    destruct (f start), (f (start + S n)%nat); cbn [Z.b2z]; lia.
Qed.
Section Key.
Variable s : list Z.
Hypothesis K : is_key s.
Notation kbyte := (map (fun j => (j / 8)%nat) (key_order s)).
Notation kbit := (map (fun j => Z.shiftl 1 (Z.of_nat (j mod 8))) (key_order s)).
Lemma land_bit v j : 0 <= v -> 0 <= j -> (0 <? Z.land v (Z.shiftl 1 j)) = Z.testbit v j.
Proof.
  intros Hv Hj. rewrite Z.shiftl_1_l. destruct (Z.testbit v j) eqn:E.
  - apply Z.ltb_lt. assert (N : 0 <= Z.land v (2 ^ j)) by (apply Z.land_nonneg; left; exact Hv). assert (M : Z.land v (2 ^ j) <> 0); [|lia].
    intros Z0. assert (T : Z.testbit (Z.land v (2 ^ j)) j = true) by (rewrite Z.land_spec, E, Z.pow2_bits_true by lia; reflexivity). rewrite Z0, Z.bits_0 in T. exact (diff_false_true T).
  - apply Z.ltb_ge. assert (Z.land v (2 ^ j) = 0); [|lia]. apply Z.bits_inj'. intros n Hn. rewrite Z.land_spec, Z.bits_0. destruct (Z.eq_dec n j) as [->|N]; [now rewrite E|]. rewrite Z.pow2_bits_false by lia. apply andb_false_r.
Qed.
Lemma perm_bit r k : bytes r -> length r = 5%nat -> (k < 40)%nat -> apply_perm k kbyte kbit r = Ok (Z.b2z (mvf_bit s r k)).
Proof.
  intros Hr L Hk. unfold apply_perm, mvf_bit. assert (J := key_order_lt K Hk). rewrite (@vget_ok _ kbyte k ((fun j => (j / 8)%nat) 0%nat)) by (rewrite map_length, key_order_length by exact K; exact Hk).
  rewrite (map_nth (fun j => (j / 8)%nat)). cbn [bind]. set (j := nth k (key_order s) 0%nat) in *. assert (j / 8 < 5)%nat by (apply Nat.div_lt_upper_bound; lia).
  rewrite (@vget_ok _ r (j / 8) 0) by lia. cbn [bind]. rewrite (@vget_ok _ kbit k ((fun j => Z.shiftl 1 (Z.of_nat (j mod 8))) 0%nat)) by (rewrite map_length, key_order_length by exact K; exact Hk).
  rewrite (map_nth (fun j => Z.shiftl 1 (Z.of_nat (j mod 8)))). cbn [bind]. fold j. rewrite land_bit; [destruct (Z.testbit _ _); reflexivity| |lia].
  assert (B : byte (nth (j / 8) r 0)). { unfold bytes in Hr. rewrite Forall_forall in Hr. apply Hr, nth_In. lia. } unfold byte in B. lia.
Qed.
Lemma number_snoc r start n : mvf_number s r start (S n) = mvf_number s r start n + Z.b2z (mvf_bit s r (start + n)) * 2 ^ Z.of_nat n /\ 0 <= mvf_number s r start n < 2 ^ Z.of_nat n.
Proof. pose proof (bits_snoc (mvf_bit s r) start n) as H. unfold bits_value in H. unfold mvf_number. exact H. Qed.
Lemma field_number r start n : bytes r -> length r = 5%nat -> (start + n <= 40)%nat -> field start n kbyte kbit r = Ok (mvf_number s r start n).
Proof.
  intros Hr L. unfold field. induction n as [|n IH]; intros Hn; [reflexivity|]. rewrite seq_S, foldM_app, IH by lia. cbn [bind foldM Nat.add]. rewrite perm_bit by (try assumption; lia). cbn [bind]. f_equal.
  destruct (number_snoc r start n) as [-> B]. rewrite <- Z.shiftl_mul_pow2 by lia. symmetry. rewrite <- Z.lxor_lor; [apply Z.add_nocarry_lxor|];
  apply Z.bits_inj'; intros i Hi; rewrite Z.land_spec, Z.bits_0, Z.shiftl_spec by lia; (destruct (Z.ltb_spec i (Z.of_nat n)); [rewrite (Z.testbit_neg_r _ (i - _)) by lia; apply andb_false_r|]);
  (destruct (Z.eq_dec (mvf_number s r start n) 0) as [->|N0]; [now rewrite Z.bits_0|]; rewrite Z.bits_above_log2; [reflexivity|lia|]; apply Z.log2_lt_pow2; [lia|]; apply (Z.lt_le_trans _ (2 ^ Z.of_nat n)); [lia|apply Z.pow_le_mono_r; lia]).
Qed.
Definition to_state (m : mvf_rec) : mstate := MState (Z.b2z (m_right m)) (Z.b2z (m_mid m)) (Z.b2z (m_left m)) (m_x m) (m_y m) (m_hs m) (m_sec m).
Lemma decode_ok r : bytes r -> length r = 5%nat -> decode kbyte kbit r = Ok (to_state (mvf_decode s r)).
Proof. intros Hr L. unfold decode. rewrite !perm_bit by (try assumption; lia). cbn [bind]. rewrite !field_number by (try assumption; lia). reflexivity. Qed.
End Key.
Lemma between_ok p px py m : mvf_changes (to_state m) (to_state p) px py = mvf_between p px py m.
Proof. unfold mvf_changes, mvf_between. destruct m as [[] [] [] y x hs sec], p as [[] [] [] y' x' hs' sec']; cbn [to_state m_right m_mid m_left m_x m_y m_hs m_sec s_rb s_mb s_lb s_x s_y Z.b2z Z.ltb Z.eqb Z.compare andb negb app]; destruct (x =? px), (y =? py); reflexivity. Qed.
Lemma ms_ok m : state_ms (to_state m) = m_sec m * 1000 + m_hs m * 10.
Proof. unfold state_ms. cbn. lia. Qed.
