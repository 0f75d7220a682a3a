From Verif Require Import Base Spec BaseFacts Matrix SafeBoard.
Open Scope Z_scope.

(** a draw within the ranges of the three [gen_range] calls (safe_board.rs 20-21, 25) *)
Definition legal_draw (d : draw) : Prop :=
  let '(a, b, k) := d in -200000000 <= a <= 200000000 /\ -10000 <= b <= 10000 /\ -10000000 <= k <= 10000000.
(** the values a stored cell may have *)
Definition storable (v : Z) : Prop := -3 <= v <= 16.
(** what is read back: the value itself, except 9 which shares its code with 10 *)
Definition readback (v : Z) : Z := if v =? 9 then 10 else v.

Lemma code_ok v : storable v -> exists c, zget code_table (v + 3) = Ok c /\ 0 <= c < 20 /\ zget row_table c = Ok (readback v).
Proof.
  intros H. assert (E : v = -3 \/ v = -2 \/ v = -1 \/ v = 0 \/ v = 1 \/ v = 2 \/ v = 3 \/ v = 4 \/ v = 5 \/ v = 6 \/ v = 7 \/ v = 8 \/ v = 9 \/ v = 10 \/ v = 11 \/ v = 12 \/ v = 13 \/ v = 14 \/ v = 15 \/ v = 16) by (unfold storable in H; lia).
  repeat (destruct E as [->|E]); [..|subst v]; eexists; (split; [reflexivity|split; [lia|reflexivity]]).
Qed.
Lemma i32_ok z : I32_MIN <= z <= I32_MAX -> i32 z = Ok z.
Proof. intros H. unfold i32. destruct (Z.leb_spec I32_MIN z), (Z.leb_spec z I32_MAX); auto; lia. Qed.
Lemma rem_code c k : 0 <= c < 20 -> (let t := Z.rem (c + k * 20) 20 in if t <? 0 then t + 20 else t) = c.
Proof.
  intros H. cbn zeta. pose proof (Z.quot_rem (c + k * 20) 20 ltac:(lia)) as Q.
  pose proof (Z.rem_bound_abs (c + k * 20) 20 ltac:(lia)) as B. change (Z.abs 20) with 20 in B.
  set (t := Z.rem (c + k * 20) 20) in *. set (q := Z.quot (c + k * 20) 20) in *.
  destruct (Z.ltb_spec t 0); lia.
Qed.
Lemma encode_ok v d : storable v -> legal_draw d -> exists a b c t, encode v d = Ok (a, b, c) /\ decode a b c = Ok t /\ 0 <= t < 20 /\
  zget row_table t = Ok (readback v) /\ zget code_table (v + 3) = Ok t.
Proof.
  intros Hv Hd. destruct (code_ok Hv) as (code & E1 & Hc & E2). destruct d as [[a b] k]. destruct Hd as (Ha & Hb & Hk). unfold storable in Hv.
  exists a, b, (code + k * 20 - a - b), code. unfold encode, decode. unfold I32_MIN, I32_MAX.
  Ltac i32s := repeat (rewrite i32_ok by (unfold I32_MIN, I32_MAX; lia); cbn [bind]).
  i32s. rewrite E1. cbn [bind]. i32s.
  split; auto. i32s.
  replace (a + b + (code + k * 20 - a - b)) with (code + k * 20) by lia. split; auto.
  pose proof (rem_code k Hc) as Q. cbn zeta in Q. pose proof (Z.rem_bound_abs (code + k * 20) 20 ltac:(lia)) as B. change (Z.abs 20) with 20 in B.
  set (t := Z.rem (code + k * 20) 20) in *. clearbody t.
  destruct (Z.ltb_spec t 0); now f_equal.
Qed.
Lemma encode_bad v d : ~ storable v -> legal_draw d -> encode v d = Panic.
Proof.
  intros Hv Hd. destruct d as [[a b] k]. unfold encode, i32, storable in *.
  destruct ((I32_MIN <=? v + 3) && (v + 3 <=? I32_MAX)) eqn:E; auto. cbn [bind]. unfold zget.
  destruct (Z.ltb_spec (v + 3) 0); auto. unfold vget. destruct (nth_error code_table (Z.to_nat (v + 3))) eqn:N; auto.
  assert (nth_error code_table (Z.to_nat (v + 3)) <> None) as Hn by congruence. apply nth_error_Some in Hn. cbn in Hn. lia.
Qed.

(** the cells of a row: three parallel values whose decoding is [t] *)
Definition cell3 (r : srow) (i : nat) (t : Z) : Prop :=
  exists a b c, vget (value_1 r) i = Ok a /\ vget (value_2 r) i = Ok b /\ vget (value_3 r) i = Ok c /\ decode a b c = Ok t.
Definition holds (r : srow) (v : list Z) : Prop :=
  length (value_1 r) = length v /\ length (value_2 r) = length v /\ length (value_3 r) = length v /\
  forall i, (i < length v)%nat -> exists t, cell3 r i t /\ 0 <= t < 20 /\ zget row_table t = Ok (readback (nth i v 0)) /\ zget code_table (nth i v 0 + 3) = Ok t.

Lemma vget_app_l {A} (l m : list A) i : (i < length l)%nat -> vget (l ++ m) i = vget l i.
Proof. intros H. unfold vget. now rewrite nth_error_app1. Qed.
Lemma vget_app_r {A} (l : list A) x i : i = length l -> vget (l ++ [x]) i = Ok x.
Proof. intros ->. unfold vget. rewrite nth_error_app2, Nat.sub_diag by lia. reflexivity. Qed.

Lemma row_new_loop_ok v : forall rnd r w, Forall storable v -> Forall legal_draw rnd -> (length v <= length rnd)%nat -> holds r w ->
  exists r', row_new_loop v rnd r = Ok (r', skipn (length v) rnd) /\ holds r' (w ++ v) /\ r_counter r' = r_counter r.
Proof.
  induction v as [|x v IH]; intros rnd r w Hv Hr Hl Hw; cbn [row_new_loop length skipn].
  - exists r. rewrite app_nil_r. auto.
  - destruct rnd as [|d rnd]; cbn in Hl; [lia|]. inversion Hv; subst. inversion Hr; subst.
    destruct (encode_ok H1 H3) as (a & b & c & t & E & D & Ht & T & T2). rewrite E. cbn [bind].
    destruct Hw as (L1 & L2 & L3 & Hc).
    edestruct (IH rnd (SRow (value_1 r ++ [a]) (value_2 r ++ [b]) (value_3 r ++ [c]) (r_counter r)) (w ++ [x])) as (r' & E' & Hh & Hcnt); auto; [lia| |].
    { unfold holds. cbn [value_1 value_2 value_3]. rewrite !app_length. cbn [length]. split; [lia|]. split; [lia|]. split; [lia|].
      intros i Hi. destruct (Nat.eq_dec i (length w)) as [->|Hne].
      - exists t. rewrite app_nth2, Nat.sub_diag by lia. cbn [nth]. split; auto. exists a, b, c. cbn [value_1 value_2 value_3]. rewrite !vget_app_r by lia. auto.
      - destruct (Hc i ltac:(lia)) as (t' & (a' & b' & c' & G1 & G2 & G3 & G4) & H). exists t'. rewrite app_nth1 by lia. split; auto.
        exists a', b', c'. cbn [value_1 value_2 value_3]. rewrite !vget_app_l by lia. auto. }
    exists r'. rewrite <- app_assoc in Hh. auto.
Qed.
Lemma row_new_ok v rnd : Forall storable v -> Forall legal_draw rnd -> (length v <= length rnd)%nat ->
  exists r, row_new v rnd = Ok (r, skipn (length v) rnd) /\ holds r v /\ r_counter r = 0%nat.
Proof.
  intros. destruct (@row_new_loop_ok v rnd (SRow [] [] [] 0) []) as (r & E & Hh & Hc); auto.
  - unfold holds. cbn. repeat split; auto. intros i Hi. lia.
  - exists r. auto.
Qed.
Lemma holds_index r v i : holds r v -> (i < length v)%nat -> row_index r i = Ok (readback (nth i v 0)).
Proof.
  intros (_ & _ & _ & H) Hi. destruct (H i Hi) as (t & (a & b & c & G1 & G2 & G3 & G4) & _ & E & _). unfold row_index. rewrite G1, G2, G3. cbn [bind]. rewrite G4. exact E.
Qed.
Lemma mapM_seq {B} (f : nat -> R B) (g : nat -> B) s n : (forall i, (s <= i < s + n)%nat -> f i = Ok (g i)) -> mapM f (seq s n) = Ok (map g (seq s n)).
Proof. revert s; induction n as [|n IH]; intros s H; auto. cbn [seq mapM map]. rewrite H by lia. cbn [bind]. rewrite IH by (intros; apply H; lia). reflexivity. Qed.
Lemma map_nth_seq {A B} (f : A -> B) (l : list A) d : map (fun i => f (nth i l d)) (seq 0 (length l)) = map f l.
Proof.
  induction l as [|a l IH]; auto. cbn [length map]. rewrite <- cons_seq, <- seq_shift. cbn [map nth]. rewrite map_map. cbn [nth]. f_equal. exact IH.
Qed.
Lemma holds_vec r v : holds r v -> mapM (row_index r) (seq 0 (length v)) = Ok (map readback v).
Proof.
  intros H. rewrite (@mapM_seq _ _ (fun i => readback (nth i v 0))) by (intros i Hi; apply (holds_index H); lia). f_equal. apply map_nth_seq.
Qed.

Lemma skipn_skipn' {A} a b (l : list A) : skipn a (skipn b l) = skipn (b + a) l.
Proof. revert l; induction b as [|b IH]; intros l; auto. destruct l; cbn [skipn Nat.add]; [now rewrite skipn_nil|auto]. Qed.
(** the rows of a board *)
Lemma rows_new_ok v : forall rnd, Forall (Forall storable) v -> Forall legal_draw rnd -> (length (concat v) <= length rnd)%nat ->
  exists rs, rows_new v rnd = Ok (rs, skipn (length (concat v)) rnd) /\ Forall2 (fun r w => holds r w /\ r_counter r = 0%nat) rs v.
Proof.
  induction v as [|w v IH]; intros rnd Hv Hr Hl; cbn [rows_new concat length].
  - exists []. split; auto.
  - inversion Hv; subst. cbn [concat] in Hl. rewrite app_length in Hl. destruct (@row_new_ok w rnd) as (r & E & Hh & Hc); auto; [lia|]. rewrite E. cbn [bind].
    destruct (IH (skipn (length w) rnd)) as (rs & E' & F); auto.
    { apply Forall_forall. intros d Hd. rewrite Forall_forall in Hr. apply Hr. rewrite <- (firstn_skipn (length w) rnd). apply in_or_app. now right. }
    { rewrite skipn_length. lia. }
    rewrite E'. cbn [bind]. exists (r :: rs). split; [|constructor; auto]. do 2 f_equal. now rewrite skipn_skipn', app_length.
Qed.
Lemma Forall2_nth_error {A B} (P : A -> B -> Prop) l l' i b : Forall2 P l l' -> nth_error l' i = Some b -> exists a, nth_error l i = Some a /\ P a b.
Proof. intros H. revert i. induction H; intros [|i] E; cbn in *; try discriminate; [injection E as <-; eauto|auto]. Qed.

Definition is_stored (rs : list srow) (v : board) : Prop := Forall2 (fun r w => holds r w /\ r_counter r = 0%nat) rs v.
Lemma stored_index rs v i j k w : is_stored rs v -> nth_error v i = Some w -> (j < length w)%nat ->
  sboard_index (SBoard rs k) i j = Ok (readback (nth j w 0)).
Proof.
  intros F E Hj. destruct (Forall2_nth_error F E) as (r & Er & Hh & _). unfold sboard_index, vget. cbn [s_value]. rewrite Er. cbn [bind]. now apply holds_index.
Qed.
Lemma stored_into rs v k row column : is_stored rs v -> rect row column v ->
  sboard_into (SBoard rs k) = Ok (map (map readback) v) /\ s_get_row (SBoard rs k) = row /\ ((0 < row)%nat -> s_get_column (SBoard rs k) = Ok column).
Proof.
  intros F [Hr Hc]. assert (Hcol : (0 < row)%nat -> s_get_column (SBoard rs k) = Ok column).
  { intros H0. destruct F as [|r w rs v [Hh _] F]; cbn in Hr; [lia|]. unfold s_get_column. cbn. inversion Hc; subst. destruct Hh as (L & _). now rewrite L. }
  split; [|split; auto].
  - unfold sboard_into. cbn [s_value]. destruct v as [|w0 v0] eqn:Ev; [inversion F; reflexivity|]. rewrite <- Ev in *.
    rewrite Hcol by (rewrite <- Hr, Ev; cbn; lia). clear Hcol Ev. cbn [bind]. clear Hr. induction F as [|r w rs v [Hh _] F IH]; auto.
    inversion Hc; subst. cbn [mapM map]. rewrite (holds_vec Hh). cbn [bind]. rewrite IH by auto. reflexivity.
  - unfold s_get_row. cbn. rewrite <- Hr. clear -F. induction F; cbn; auto.
Qed.

(** iteration returns the codes, not the values *)
Definition code_of (v : Z) : Z := nth (Z.to_nat (v + 3)) code_table 0.
Lemma row_iter_from r v n : holds r v -> (n <= length v)%nat -> forall fuel, (length v - n < fuel)%nat ->
  row_iter fuel (SRow (value_1 r) (value_2 r) (value_3 r) n) = Ok (map code_of (skipn n v)).
Proof.
  intros Hh Hn fuel. revert n Hn. induction fuel as [|fuel IH]; intros n Hn Hf; [lia|]. cbn [row_iter]. unfold row_next. cbn [value_1 value_2 value_3 r_counter].
  destruct Hh as (L1 & L2 & L3 & H). rewrite L1. destruct (Nat.ltb_spec n (length v)) as [Hlt|Hge].
  - destruct (H n Hlt) as (t & (a & b & c & G1 & G2 & G3 & G4) & Ht & _ & E). rewrite G1, G2, G3. cbn [bind]. rewrite G4. cbn [bind]. rewrite IH by lia. cbn [bind].
    rewrite (skipn_nth_cons 0 Hlt). cbn [map]. do 2 f_equal. unfold code_of. unfold zget in E. destruct (nth n v 0 + 3 <? 0); [discriminate|]. unfold vget in E.
    destruct (nth_error code_table (Z.to_nat (nth n v 0 + 3))) eqn:N; [|discriminate]. injection E as <-. now rewrite (nth_error_nth _ _ _ N).
  - cbn [bind]. rewrite skipn_all2 by lia. reflexivity.
Qed.
