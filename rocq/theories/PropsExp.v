(** * PropsExp: what the fast 3BV of expert boards counts, and its sampler (C47 exact, C79). *)
From Verif Require Import Base Spec BaseFacts LayMine LayMineProofs Metrics MetricsProofs BBBVProofs Utils ExpSpec ExpProofs Sample SampleProofs PropsUtils.
Open Scope Z_scope.

(** ** C47: the exact value of [cal_bbbv_exp]. C47_refuted (PropsUtils.v) shows it is not the 3BV;
    these theorems say what it is on every legal board, and when it is the 3BV. *)
Theorem C47_scan_start_meaning : forall b p, inb 16 30 p ->
  scan_startb 16 30 b p = true <->
  cell b p = 0 /\ forall q, inb 16 30 q -> near p q -> (fst q < fst p \/ fst q = fst p /\ snd q < snd p)%nat -> cell b q <> 0.
Proof.
  intros b p Hp. rewrite <- scan_startb_iff by auto. unfold scan_start, zero_cell, before. tauto.
Qed.
Print Assumptions C47_scan_start_meaning.

(** It never panics; islands are counted as in the 3BV, but openings are counted once per scan start
    instead of once per connected region of zeros. *)
Theorem C47_exact : forall b, legal_board 16 30 b ->
  cal_bbbv_exp b = Ok (count (island_cellb 16 30 b) (positions 16 30) + count (scan_startb 16 30 b) (positions 16 30))%nat.
Proof. intros b Hl. apply exp_exact; [apply Hl|]. intros p. now apply legal_small. Qed.
Print Assumptions C47_exact.

(** It is never below the 3BV, and equal to it exactly when no region of zeros has two scan starts. *)
Theorem C47_never_less : forall b, legal_board 16 30 b ->
  exists n m, cal_bbbv b = Ok n /\ cal_bbbv_exp b = Ok m /\ (n <= m)%nat /\
    (m = n <-> forall p q, inb 16 30 p -> inb 16 30 q -> scan_startb 16 30 b p = true -> scan_startb 16 30 b q = true ->
                 connected (zero_cell 16 30 b) p q -> p = q).
Proof.
  intros b Hl. destruct (bbbv_minimal Hl) as (n & En & (k & Hk & Hn) & _ & _); [lia|].
  exists n. eexists. split; [exact En|]. split; [now apply C47_exact|].
  pose proof Hk as (reps & L & Nd & F & C & U). rewrite Forall_forall in F.
  set (S := filter (scan_startb 16 30 b) (positions 16 30)).
  assert (HS : forall s, In s S <-> inb 16 30 s /\ scan_startb 16 30 b s = true).
  { intros s. unfold S. rewrite filter_In, in_positions. tauto. }
  assert (NS : NoDup S) by apply NoDup_filter, NoDup_positions.
  assert (Hz : forall s, In s S -> zero_cell 16 30 b s).
  { intros s Hs. apply HS in Hs as [H1 H2]. now apply scan_startb_iff in H2 as [H2 _]. }
  assert (Hreach : forall z, zero_cell 16 30 b z -> exists s, In s S /\ connected (zero_cell 16 30 b) s z).
  { intros z Hz0. destruct (@start_reaches b (fun p => @legal_small 16 30 b p Hl) (Datatypes.S (key z)) z) as (s & H1 & H2 & H3); auto. exists s. split; auto. apply HS; auto. }
  assert (Hone : forall p u1 u2, In u1 reps -> In u2 reps -> connected (zero_cell 16 30 b) p u1 -> connected (zero_cell 16 30 b) p u2 -> u1 = u2).
  { intros p u1 u2 H1 H2 H3 H4. apply U; auto. eapply connected_trans; [apply connected_sym, H3|exact H4]. }
  change (count (scan_startb 16 30 b) (positions 16 30)) with (length S).
  assert (Hle : (k <= length S)%nat).
  { rewrite <- L. apply (@pigeon 16 (Nat.lt_0_succ 15) (connected (zero_cell 16 30 b))); auto. }
  split; [lia|]. split.
  - intros E p q Hp Hq Sp Sq Hc. destruct (pos_eq_dec p q) as [|Hne]; auto. exfalso.
    assert (Hp' : In p S) by (apply HS; auto). assert (Hq' : In q S) by (apply HS; auto).
    apply in_split in Hq' as (l1 & l2 & ES).
    assert (Hle' : (length reps <= length (l1 ++ l2))%nat).
    { apply (@pigeon 16 (Nat.lt_0_succ 15) (connected (zero_cell 16 30 b))); auto. intros u Hu. destruct (Hreach u (F u Hu)) as (s & Hs & Hsu).
      destruct (pos_eq_dec s q) as [->|Hsq].
      - exists p. split; [|eapply connected_trans; eauto]. rewrite ES in Hp'. apply in_app_or in Hp' as [H|[H|H]]; [apply in_or_app; auto|congruence|apply in_or_app; auto].
      - exists s. split; auto. rewrite ES in Hs. apply in_app_or in Hs as [H|[H|H]]; [apply in_or_app; auto|congruence|apply in_or_app; auto]. }
    rewrite ES in E. rewrite app_length in *. cbn [length] in E. lia.
  - intros H. assert (Hc : components (zero_cell 16 30 b) (length S)).
    { exists S. split; auto. split; auto. split; [now apply Forall_forall|]. split; auto.
      intros r1 r2 H1 H2 H3. apply HS in H1 as [? ?], H2 as [? ?]. apply H; auto. }
    pose proof (components_unique Hk Hc). lia.
Qed.
Print Assumptions C47_never_less.
(** the witness of C47_refuted: one region of zeros with the scan starts (0,0) and (0,4) *)
Example C47_exact_case : legal_board 16 30 exp_witness /\
  filter (scan_startb 16 30 exp_witness) (positions 16 30) = [(0, 0); (0, 4)]%nat /\
  count (island_cellb 16 30 exp_witness) (positions 16 30) = 0%nat.
Proof. split; [apply legal_boardb_ok; vm_compute; reflexivity|]. split; vm_compute; reflexivity. Qed.

(** ** C79: the 3BV sampler. [shufs t i] is the shuffle used for the i-th board of thread [t]. *)
Definition games (n : nat) : list (nat * nat) := list_prod (seq 0 16) (seq 0 (n / 16)).
Theorem C79_sample_partial : forall shufs x0 y0 n, (forall t i l, Permutation l (shufs t i l)) -> inb 16 30 (x0, y0) ->
  exists (bd : nat * nat -> board) h,
    (forall g, In g (games n) -> laymine (shufs (fst g) (snd g)) 16 30 99 x0 y0 = Ok (bd g) /\
       legal_board 16 30 (bd g) /\ mine_count 16 30 (bd g) = 99%nat /\ is_mine (bd g) (x0, y0) = false) /\
    sample_3BVs_exp shufs x0 y0 n = Ok h /\ length h = 382%nat /\
    (forall k, nth k h 0%nat = count (fun g => match cal_bbbv_exp (bd g) with Ok m => (m =? k)%nat | _ => false end) (games n)) /\
    list_sum h = (16 * (n / 16))%nat.
Proof.
  intros shufs x0 y0 n Hp Hi. destruct (sample_ok Hp Hi n) as (h & E & Hl & Hk).
  exists (fun g => bd shufs x0 y0 (fst g) (snd g)), h. split.
  { intros g _. apply (bd_ok Hp Hi (fst g) (snd g)). }
  split; auto. split; auto. split.
  - intros k. rewrite Hk. apply count_ext. intros g _. now rewrite (proj1 (bd_exp Hp Hi (fst g) (snd g))).
  - rewrite (@hist_total _ (fun g => exp_of (bd shufs x0 y0 (fst g) (snd g))) 382 (games n) h); auto.
    + unfold games. now rewrite prod_length, !seq_length.
    + intros g _. pose proof (proj2 (bd_exp Hp Hi (fst g) (snd g))). lia.
Qed.
Print Assumptions C79_sample_partial.
(** the board each game uses is laid by the same rule as [laymine] *)
Theorem C79_board_is_laymine : forall shuf x0 y0, (forall l, Permutation l (shuf l)) -> inb 16 30 (x0, y0) ->
  study_board shuf x0 y0 = laymine shuf 16 30 99 x0 y0.
Proof.
  intros shuf x0 y0 Hp Hi. apply study_board_laymine; auto. rewrite <- (Permutation_length (Hp _)), app_length, !repeat_length. reflexivity.
Qed.
Print Assumptions C79_board_is_laymine.
(** Fewer than [n] boards are sampled unless 16 divides [n]; with n < 16 none is. *)
Theorem C79_fewer_games : forall shufs x0 y0 n, (forall t i l, Permutation l (shufs t i l)) -> inb 16 30 (x0, y0) ->
  exists h, sample_3BVs_exp shufs x0 y0 n = Ok h /\ (list_sum h <= n)%nat /\ (n < list_sum h + 16)%nat /\
    (list_sum h = n <-> Nat.divide 16 n) /\ ((n < 16)%nat -> h = repeat 0%nat 382).
Proof.
  intros shufs x0 y0 n Hp Hi. destruct (C79_sample_partial n Hp Hi) as (bd & h & _ & E & Hl & Hk & Hs). exists h. split; auto. rewrite Hs.
  pose proof (Nat.div_mod n 16 ltac:(lia)) as D. pose proof (Nat.mod_upper_bound n 16 ltac:(lia)) as B.
  split; [lia|]. split; [lia|]. split.
  - split; [intros H; exists (n / 16)%nat; lia|]. intros [c Hc]. subst n. rewrite Nat.div_mul; lia.
  - intros Hn. apply (@nth_ext _ h (repeat 0%nat 382) 0%nat 0%nat); [now rewrite repeat_length|].
    intros k _. rewrite Hk, nth_repeat. unfold games. now rewrite Nat.div_small by auto.
Qed.
Print Assumptions C79_fewer_games.
(** The counts are of [cal_bbbv_exp], which is not the 3BV: with this shuffle every board has 3BV 1
    and all of them are recorded under 2. *)
Definition bad_shuf (l : list Z) : list Z :=
  if (length l =? 479)%nat then firstn 31 l ++ skipn 478 l ++ skipn 31 (firstn 478 l) else l.
Lemma bad_shuf_perm l : Permutation l (bad_shuf l).
Proof.
  unfold bad_shuf. destruct (length l =? 479)%nat; auto.
  rewrite <- (firstn_skipn 478 l) at 1. rewrite <- (firstn_skipn 31 (firstn 478 l)) at 1.
  rewrite firstn_firstn. change (Nat.min 31 478) with 31%nat. rewrite <- app_assoc. apply Permutation_app_head, Permutation_app_comm.
Qed.
Theorem C79_refuted : exists shufs b h, (forall t i l, Permutation l (shufs t i l)) /\
  (forall t i, laymine (shufs t i) 16 30 99 0 0 = Ok b) /\ cal_bbbv b = Ok 1%nat /\
  sample_3BVs_exp shufs 0 0 16 = Ok h /\ nth 1 h 0%nat = 0%nat /\ nth 2 h 0%nat = 16%nat.
Proof.
  exists (fun _ _ => bad_shuf). eexists. eexists. split; [intros _ _; exact bad_shuf_perm|].
  split; [intros _ _; vm_compute; reflexivity|]. split; [vm_compute; reflexivity|]. split; [vm_compute; reflexivity|]. split; reflexivity.
Qed.
Print Assumptions C79_refuted.
Example C79_case : (forall l : list Z, Permutation l (bad_shuf l)) /\ inb 16 30 (3, 5)%nat /\
  exists b, study_board bad_shuf 3 5 = Ok b /\ is_mine b (3, 5)%nat = false /\ cal_bbbv_exp b = Ok 2%nat.
Proof.
  split; [exact bad_shuf_perm|]. split; [unfold inb; cbn [fst snd]; lia|].
  eexists. split; [vm_compute; reflexivity|]. split; vm_compute; reflexivity.
Qed.
