(** * Properties of saving files (C43) and of [is_valid] (C44). *)
From Coq Require Import DecimalNat.
From Verif Require Import Base Spec BaseFacts MineBoard Evf BaseVideo SaveFile PropsPlayback.
Open Scope Z_scope.

Lemma bytes_eqb_iff : forall a b, bytes_eqb a b = true <-> a = b.
Proof.
  induction a as [|x a IH]; intros [|y b]; cbn; try (split; congruence).
  rewrite andb_true_iff, IH, Z.eqb_eq. split; [intros [-> ->]; auto|intros H; injection H; auto].
Qed.
Lemma file_exists_iff d name : file_exists d name = true <-> In name (map fst d).
Proof.
  unfold file_exists. rewrite existsb_exists, in_map_iff. split.
  - intros (f & Hf & E). apply bytes_eqb_iff in E. eauto.
  - intros (f & E & Hf). exists f. split; auto. now apply bytes_eqb_iff.
Qed.
Lemma ascii_of_inj : forall u w, ascii_of u = ascii_of w -> u = w.
Proof. induction u; intros [] E; cbn in E; try discriminate; auto; injection E as E; f_equal; auto. Qed.
Lemma show_inj a b : show a = show b -> a = b.
Proof. intros E. apply ascii_of_inj in E. now apply Unsigned.to_uint_inj. Qed.

(** ** C43 *)

(** The [k]-th name tried: name.evf, name(2).evf, name(3).evf, ... *)
Definition candidate (name : list Z) (k : nat) : list Z :=
  match k with
  | O => name ++ dot_evf
  | _ => name ++ [40] ++ show (S k) ++ [41] ++ dot_evf
  end.
Lemma candidate_inj name a b : (1 <= a)%nat -> (1 <= b)%nat -> candidate name a = candidate name b -> a = b.
Proof.
  intros Ha Hb E. destruct a; [lia|]. destruct b; [lia|]. cbn [candidate] in E.
  apply app_inv_head in E. cbn [app] in E. injection E as E. apply app_inv_tail in E.
  apply show_inj in E. lia.
Qed.

Lemma save_loop_ok d name raw : forall fuel k, (1 <= k)%nat ->
  (length d + 1 < k + fuel)%nat -> (forall j, (1 <= j < k)%nat -> In (candidate name j) (map fst d)) ->
  exists n, (k <= n)%nat /\ save_loop fuel d name raw (S k) = Ok (d ++ [(candidate name n, raw)]) /\
    ~ In (candidate name n) (map fst d) /\ (forall j, (1 <= j < n)%nat -> In (candidate name j) (map fst d)).
Proof.
  induction fuel as [|f IH]; intros k Hk Hf Hin.
  - exfalso.
    assert (H : (length (map (candidate name) (seq 1 (k - 1))) <= length (map fst d))%nat).
    { apply NoDup_incl_length.
      - apply NoDup_map_in; [|apply seq_NoDup].
        intros x y Hx Hy. apply in_seq in Hx, Hy. apply candidate_inj; lia.
      - intros x Hx. apply in_map_iff in Hx as (j & <- & Hj). apply in_seq in Hj. apply Hin. lia. }
    rewrite !map_length, seq_length in H. lia.
  - cbn [save_loop].
    assert (Ec : name ++ [40] ++ show (S k) ++ [41] ++ dot_evf = candidate name k) by (destruct k; [lia|reflexivity]).
    rewrite Ec. destruct (file_exists d (candidate name k)) eqn:E; cbn [negb].
    + destruct (IH (S k)) as (n & Hn & H); try lia.
      * intros j Hj. destruct (Nat.eq_dec j k) as [->|]; [now apply file_exists_iff|apply Hin; lia].
      * exists n. split; [lia|exact H].
    + exists k. split; auto. unfold write_file. rewrite E. split; auto. split; auto.
      rewrite <- file_exists_iff. now rewrite E.
Qed.

(** Whatever files exist, saving terminates, adds exactly one file, under the first candidate name
    that is free, with the raw data as content, and leaves every existing file as it was. *)
Theorem C43_saving_never_overwrites : forall d v name,
  exists k, save_to_evf_file d v name = Ok (d ++ [(candidate name k, b_raw v)]) /\
    ~ In (candidate name k) (map fst d) /\
    (forall j, (j < k)%nat -> In (candidate name j) (map fst d)).
Proof.
  intros d v name. unfold save_to_evf_file. change (name ++ dot_evf) with (candidate name 0).
  destruct (file_exists d (candidate name 0)) eqn:E; cbn [negb].
  - destruct (@save_loop_ok d name (b_raw v) (S (S (length d))) 1) as (n & Hn & E1 & H1 & H2); try lia.
    exists n. split; auto. split; auto. intros j Hj. destruct j as [|j]; [now apply file_exists_iff|apply H2; lia].
  - exists 0%nat. unfold write_file. rewrite E. split; auto. split; [|lia].
    rewrite <- file_exists_iff. now rewrite E.
Qed.
Print Assumptions C43_saving_never_overwrites.
(** "a.evf" and "a(2).evf" exist: the next save goes to "a(3).evf" *)
Example C43_case :
  let d := [([97; 46; 101; 118; 102], [1]); ([97; 40; 50; 41; 46; 101; 118; 102], [2])] in
  save_to_evf_file d (bw_raw (mini_video 1 1 [] [] 0) [3]) [97] =
  Ok (d ++ [([97; 40; 51; 41; 46; 101; 118; 102], [3])]).
Proof. vm_compute. reflexivity. Qed.
Example C43_show : show 10 = [49; 48] /\ show 907 = [57; 48; 55].
Proof. vm_compute. auto. Qed.

(** ** C44 *)

(** Ten digits, read as a decimal number. *)
Definition decimal (s : list Z) : Z := fold_left (fun acc c => acc * 10 + (c - 48)) s 0.

(** The reasons to reject a video before looking at its events. *)
Definition banned (f : video) : Prop :=
  (v_software f <> sw_arbiter /\ v_software f <> sw_vienna /\ v_software f <> sw_yuan32 /\
     v_software f <> sw_yuan317) \/
  (v_software f = sw_vienna /\ 1682265600 < decimal (firstn 10 (v_start f))) \/
  ((v_software f = sw_yuan32 \/ v_software f = sw_yuan317) /\
     ((exists c, forall x, In x (v_checksum f) -> x = c) \/ v_fair f = false)).
(** Fewer than ten recorded events per 3BV. *)
Definition sparse (v : bv) : Prop := Z.of_nat (length (b_rec v)) < 10 * v_bbbv (b_meta v).
(** A Viennasweeper video carries a time stamp of at least ten bytes, digits or later characters. *)
Definition stamped (f : video) : Prop :=
  v_software f = sw_vienna -> (10 <= length (v_start f))%nat /\ forall c, In c (firstn 10 (v_start f)) -> 48 <= c.

Lemma vienna_time_ok s : (10 <= length s)%nat -> (forall c, In c (firstn 10 s) -> 48 <= c) ->
  vienna_time s = Ok (decimal (firstn 10 s)).
Proof.
  intros Hl Hc. unfold vienna_time, decimal.
  assert (H : forall n o acc, (o + n <= length s)%nat -> (forall c, In c (firstn n (skipn o s)) -> 48 <= c) ->
    foldM (fun acc i => let* d := digit_at s i in Ok (acc * 10 + d)) (seq o n) acc =
    Ok (fold_left (fun acc c => acc * 10 + (c - 48)) (firstn n (skipn o s)) acc)).
  { induction n as [|n IH]; intros o acc Ho Hd; [reflexivity|]. cbn [seq foldM]. unfold digit_at at 1.
    rewrite (vget_ok 0) by lia. cbn [bind]. rewrite (skipn_nth_cons 0) in Hd |- * by lia.
    cbn [firstn fold_left] in *. replace (48 <=? nth o s 0) with true by (specialize (Hd (nth o s 0)); cbn in Hd; lia).
    cbn [bind]. apply IH; [lia|]. intros c Hin. apply Hd. now right. }
  apply (H 10%nat 0%nat 0); auto.
Qed.

Lemma all_same l : forallb (fun e => e =? nth 0 l 0) l = true <-> exists c : Z, forall x, In x l -> x = c.
Proof.
  rewrite forallb_forall. split.
  - intros H. exists (nth 0 l 0). intros x Hx. specialize (H x Hx). lia.
  - intros (c & H) x Hx. destruct l as [|y l]; [contradiction|]. cbn [nth].
    rewrite (H x Hx), (H y (or_introl eq_refl)). lia.
Qed.

Theorem C44_is_valid_exact : forall v, stamped (b_meta v) ->
  exists n, is_valid v = Ok n /\
    (n = 0%nat <-> ~ banned (b_meta v) /\ ~ sparse v /\ v_completed (b_meta v) = true) /\
    (n = 3%nat <-> ~ banned (b_meta v) /\ sparse v) /\
    (n = 1%nat <-> banned (b_meta v) \/ (~ sparse v /\ v_completed (b_meta v) = false)).
Proof.
  intros v Hst. unfold is_valid, sparse. cbn zeta.
  set (fin := if Z.of_nat (length (b_rec v)) <? 10 * v_bbbv (b_meta v) then Ok 3%nat
    else if v_completed (b_meta v) then Ok 0%nat else Ok 1%nat).
  assert (Hfin : ~ banned (b_meta v) -> exists n, fin = Ok n /\
    (n = 0%nat <-> ~ banned (b_meta v) /\ ~ Z.of_nat (length (b_rec v)) < 10 * v_bbbv (b_meta v) /\ v_completed (b_meta v) = true) /\
    (n = 3%nat <-> ~ banned (b_meta v) /\ Z.of_nat (length (b_rec v)) < 10 * v_bbbv (b_meta v)) /\
    (n = 1%nat <-> banned (b_meta v) \/ (~ Z.of_nat (length (b_rec v)) < 10 * v_bbbv (b_meta v) /\ v_completed (b_meta v) = false))).
  { intros Hb. unfold fin.
    assert (Hsp : (Z.of_nat (length (b_rec v)) <? 10 * v_bbbv (b_meta v)) = true <->
                  Z.of_nat (length (b_rec v)) < 10 * v_bbbv (b_meta v)) by lia.
    assert (T1 : 0%nat <> 1%nat) by lia. assert (T2 : 0%nat <> 3%nat) by lia. assert (T3 : 1%nat <> 3%nat) by lia.
    destruct (Z.of_nat (length (b_rec v)) <? 10 * v_bbbv (b_meta v)); [|destruct (v_completed (b_meta v))];
    [exists 3%nat|exists 0%nat|exists 1%nat]; (split; [reflexivity|]); intuition congruence. }
  assert (Hone : banned (b_meta v) -> exists n, Ok 1%nat = Ok n /\
    (n = 0%nat <-> ~ banned (b_meta v) /\ ~ Z.of_nat (length (b_rec v)) < 10 * v_bbbv (b_meta v) /\ v_completed (b_meta v) = true) /\
    (n = 3%nat <-> ~ banned (b_meta v) /\ Z.of_nat (length (b_rec v)) < 10 * v_bbbv (b_meta v)) /\
    (n = 1%nat <-> banned (b_meta v) \/ (~ Z.of_nat (length (b_rec v)) < 10 * v_bbbv (b_meta v) /\ v_completed (b_meta v) = false))).
  { intros Hb. exists 1%nat. split; auto. split; [|split]; split; try discriminate; tauto. }
  clearbody fin. unfold banned in *.
  assert (Hne : forall a b, bytes_eqb a b = false -> a <> b).
  { intros a b E -> . assert (bytes_eqb b b = true) by now apply bytes_eqb_iff. congruence. }
  assert (D1 : sw_arbiter <> sw_vienna) by discriminate. assert (D2 : sw_arbiter <> sw_yuan32) by discriminate.
  assert (D3 : sw_arbiter <> sw_yuan317) by discriminate. assert (D4 : sw_vienna <> sw_yuan32) by discriminate.
  assert (D5 : sw_vienna <> sw_yuan317) by discriminate.
  destruct (bytes_eqb (v_software (b_meta v)) sw_arbiter) eqn:E1.
  { apply bytes_eqb_iff in E1. apply Hfin. rewrite E1. intuition congruence. }
  apply Hne in E1.
  destruct (bytes_eqb (v_software (b_meta v)) sw_vienna) eqn:E2.
  { apply bytes_eqb_iff in E2. destruct (Hst E2) as [Ha Hb]. rewrite vienna_time_ok by auto. cbn [bind].
    destruct (Z.ltb_spec 1682265600 (decimal (firstn 10 (v_start (b_meta v))))).
    - apply Hone. right. left. auto.
    - apply Hfin. rewrite E2. intros [Hx|[[_ Hx]|[[Hx|Hx] _]]]; [intuition congruence|lia|congruence|congruence]. }
  apply Hne in E2.
  destruct (bytes_eqb (v_software (b_meta v)) sw_yuan32 || bytes_eqb (v_software (b_meta v)) sw_yuan317) eqn:E3.
  { assert (Hy : v_software (b_meta v) = sw_yuan32 \/ v_software (b_meta v) = sw_yuan317).
    { apply orb_true_iff in E3. rewrite !bytes_eqb_iff in E3. exact E3. }
    destruct (forallb (fun e => e =? nth 0 (v_checksum (b_meta v)) 0) (v_checksum (b_meta v))) eqn:E4.
    - apply Hone. right. right. split; auto. left. now apply all_same.
    - destruct (v_fair (b_meta v)) eqn:E5; cbn [negb].
      + apply Hfin. intros [Hx|[[Hx _]|[_ [Hx|Hx]]]]; [tauto|tauto| |discriminate].
        apply all_same in Hx. congruence.
      + apply Hone. right. right. auto. }
  apply orb_false_iff in E3 as [E3 E4]. apply Hne in E3, E4. apply Hone. left. auto.
Qed.
Print Assumptions C44_is_valid_exact.

(** The documentation says that the identifiers are checked. They are not: the answer never depends
    on them (nor on the level). *)
Theorem C44_refuted_identifiers_ignored : forall v p r u l,
  is_valid (on_meta v (fun f => vw_level (vw_uniq (vw_race (vw_player f p) r) u) l)) = is_valid v.
Proof. reflexivity. Qed.
Print Assumptions C44_refuted_identifiers_ignored.

(** Without [stamped] the call can crash: a Viennasweeper video whose start time is missing. *)
Theorem C44_refuted_crash :
  is_valid (on_meta (mini_video 8 8 [] [] 0) (fun f => vw_software f sw_vienna)) = Panic.
Proof. vm_compute. reflexivity. Qed.
Print Assumptions C44_refuted_crash.

Example C44_case :
  let v := on_meta (mini_video 8 8 (repeat (mini_rec 0 0 0) 30) [] 0)
             (fun f => vw_completed (vw_bbbv (vw_start (vw_software f sw_vienna)
                [49; 51; 56; 50; 56; 51; 52; 55; 49; 54]) 3) true) in
  stamped (b_meta v) /\ decimal (firstn 10 (v_start (b_meta v))) = 1382834716 /\ is_valid v = Ok 0%nat.
Proof.
  cbn zeta. split; [|split; vm_compute; reflexivity].
  intros _. split; [cbn; lia|]. cbn. intros c Hc. lia.
Qed.
