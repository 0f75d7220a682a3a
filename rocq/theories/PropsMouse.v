(** * PropsMouse: the analysis of the mouse path (C72). *)
From Coq Require Import ZArith Reals Lra.
From Flocq Require Import Core IEEE754.BinarySingleNaN IEEE754.Binary IEEE754.Bits.
From Verif Require Import Base Spec BaseFacts LayMine Metrics MineBoard MineBoardProofs Matrix Solve SolverSpec MatrixProofs LinFacts ChunkProofs EnumSolve PosProofs BoardCache SolveProofs EnumProofs TableProofs LayMineProofs EnumBlock StoreProofs Utils GuessSpec PossSums
  PossSpec Possibility PossMain PropsPoss MarkWorlds Evf EvfSpec BaseVideo PropsSetters PropsGame PropsReplay PropsShow Features FeatReplay FeatProofs FeatSem PropsFeatures PropsTraces FloatTime FloatTrace.
Open Scope Z_scope.

Notation real := Rdefinitions.R.

(** ** Vocabulary *)
(** The events at which the path is cut: left release, right press, right release. *)
Definition click_event (e : vev) : Prop := ve_mouse e = e_lr \/ ve_mouse e = e_rc \/ ve_mouse e = e_rr.
Definition clicks (f : video) (i : nat) : Prop := exists e, nth_error (v_events f) i = Some e /\ click_event e.
(** [i] is the next such event after [j]; [j] is one or the first event of the file *)
Definition next_click (f : video) (j i : nat) : Prop :=
  (j < i)%nat /\ clicks f i /\ (j = 0%nat \/ clicks f j) /\ forall k, (j < k < i)%nat -> ~ clicks f k.
(** Euclidean distance between two events, and the length of the walk from event [j] to event [i] *)
Definition event_of (f : video) (k : nat) : vev := nth k (v_events f) (VEv e_other 0 0 0).
Definition dist2 (f : video) (a b : nat) : Z :=
  (ve_x (event_of f a) - ve_x (event_of f b)) * (ve_x (event_of f a) - ve_x (event_of f b)) +
  (ve_y (event_of f a) - ve_y (event_of f b)) * (ve_y (event_of f a) - ve_y (event_of f b)).
Definition dist (f : video) (a b : nat) : real := sqrt (IZR (dist2 f a b)).
Definition walk (f : video) (j i : nat) : real := fold_right Rplus 0%R (map (fun k => dist f k (S k)) (seq j (i - j))).
(** the coordinates are 16 bit numbers, as in every file format, and there are at most 2^29 events *)
Definition small_coords (f : video) : Prop :=
  Forall (fun e => 0 <= ve_x e < 65536 /\ 0 <= ve_y e < 65536) (v_events f) /\ Z.of_nat (length (v_events f)) <= 2 ^ 29.


(** ** The analysis, for events given by their coordinates [X], [Y] and whether they cut the path ([C]) *)
Section Trace.
Variables (v : bv) (X Y : nat -> Z) (C : nat -> bool).
Notation len := (length (b_rec v)).
Hypothesis HR : forall i, (i < len)%nat -> exists r, vget (b_rec v) i = Ok r /\ r_x r = X i /\ r_y r = Y i /\
  event_eqb (r_mouse r) e_lr || event_eqb (r_mouse r) e_rc || event_eqb (r_mouse r) e_rr = C i.
Definition fd (a b : nat) : binary64 := f_dist (X a) (Y a) (X b) (Y b).
Definition fpath (j n : nat) : binary64 := fold_left (fun a k => b64_plus mode_NE a (fd k (S k))) (seq j n) (f64_of_Z 0).
Lemma fpath_S j n : fpath j (S n) = b64_plus mode_NE (fpath j n) (fd (j + n) (S (j + n))).
Proof. unfold fpath. rewrite seq_S, fold_left_app. reflexivity. Qed.
Fixpoint lastc (i : nat) : nat := match i with O => O | S i => if C i then i else lastc i end.
Lemma lastc_le i : (lastc i <= i)%nat.
Proof. induction i as [|i IH]; cbn [lastc]; auto. destruct (C i); lia. Qed.
Lemma lastc_lt i : (0 < i)%nat -> (lastc i < i)%nat.
Proof. destruct i as [|i]; [lia|]. intros _. cbn [lastc]. pose proof (lastc_le i). destruct (C i); lia. Qed.
Definition tnew (i : nat) : list comment :=
  if C i then match trace_comment (b64_div mode_NE (fpath (lastc i) (i - lastc i)) (fd (lastc i) i)) with Some c => [c] | None => [] end else [].

Lemma trace_fold : forall n i cm, (1 <= i)%nat -> (i + n <= len)%nat -> length cm = len -> exists cm',
  (let* (_, _, _, cm) := foldM (trace_event v) (seq i n) ((X (lastc i), Y (lastc i), lastc i), (X (i - 1)%nat, Y (i - 1)%nat), fpath (lastc i) (i - 1 - lastc i), cm) in Ok cm) = Ok cm' /\
  length cm' = len /\ forall j, nth j cm' [] = nth j cm [] ++ flat_map (fun k => if (lastc k =? j)%nat then tnew k else []) (seq i n).
Proof.
  induction n as [|n IH]; intros i cm Hi Hlen Hc.
  { exists cm. split; auto. split; auto. intros j. cbn. now rewrite app_nil_r. }
  cbn [seq foldM flat_map]. destruct (HR (i := i) ltac:(lia)) as (r & Er & Hx & Hy & HC).
  pose proof (lastc_lt Hi) as Hl.
  set (F := foldM (trace_event v) (seq (S i) n)). unfold trace_event at 1. rewrite Er. cbn [bind]. rewrite Hx, Hy, HC.
  assert (EP : b64_plus mode_NE (fpath (lastc i) (i - 1 - lastc i)) (f_dist (X (i - 1)%nat) (Y (i - 1)%nat) (X i) (Y i)) = fpath (lastc i) (i - lastc i)).
  { replace (i - lastc i)%nat with (S (i - 1 - lastc i)) by lia. rewrite fpath_S. unfold fd. replace (lastc i + (i - 1 - lastc i))%nat with (i - 1)%nat by lia. replace (S (i - 1)) with i by lia. reflexivity. }
  rewrite EP. unfold tnew at 1. destruct (C i) eqn:EC.
  - change (f_dist (X (lastc i)) (Y (lastc i)) (X i) (Y i)) with (fd (lastc i) i).
    assert (EL : lastc (S i) = i) by (cbn [lastc]; now rewrite EC).
    specialize (IH (S i)). rewrite EL in IH. replace (S i - 1 - i)%nat with 0%nat in IH by lia. replace (S i - 1)%nat with i in IH by lia. change (fpath i 0) with (f64_of_Z 0) in IH.
    set (cs := match trace_comment (b64_div mode_NE (fpath (lastc i) (i - lastc i)) (fd (lastc i) i)) with Some c => [c] | None => [] end).
    assert (ES : match trace_comment (b64_div mode_NE (fpath (lastc i) (i - lastc i)) (fd (lastc i) i)) with Some c => say cm (lastc i) c | None => Ok cm end = Ok (note cm (lastc i) cs)).
    { unfold cs. destruct (trace_comment _); [apply say_note; lia|]. now rewrite note_nil by lia. }
    rewrite ES. cbn [bind]. destruct (IH (note cm (lastc i) cs)) as (cm' & E & L & Hn); [lia|lia|now rewrite note_len|].
    exists cm'. split; [exact E|]. split; auto. intros j. rewrite Hn, note_nth by lia. destruct (lastc i =? j)%nat; [now rewrite <- app_assoc|reflexivity].
  - assert (EL : lastc (S i) = lastc i) by (cbn [lastc]; now rewrite EC).
    cbn [bind]. specialize (IH (S i) cm). rewrite EL in IH. replace (S i - 1)%nat with i in IH by lia. destruct IH as (cm' & E & L & Hn); [lia|lia|auto|].
    exists cm'. split; [exact E|]. split; auto. intros j. rewrite Hn. destruct (lastc i =? j)%nat; reflexivity.
Qed.
Lemma f_dist_self x y : f_dist x y x y = f64_of_Z 0.
Proof. unfold f_dist. replace ((x - x) * (x - x) + (y - y) * (y - y)) with 0 by lia. vm_compute. reflexivity. Qed.
Lemma trace_all st : (0 < len)%nat -> length (snd st) = len -> exists cm',
  mouse_trace v st = Ok (fst st, cm') /\ length cm' = len /\ forall j, nth j cm' [] = nth j (snd st) [] ++ flat_map (fun k => if (lastc k =? j)%nat then tnew k else []) (seq 1 (len - 1)).
Proof.
  intros H0 Hc. unfold mouse_trace. destruct (HR (i := 0%nat) H0) as (r & Er & Hx & Hy & HC). rewrite Er. cbn [bind]. rewrite Hx, Hy.
  replace (seq 0 len) with (0%nat :: seq 1 (len - 1)) by (destruct (length (b_rec v)); [lia|cbn; f_equal; f_equal; lia]).
  cbn [foldM]. set (F := foldM (trace_event v) (seq 1 (len - 1))). unfold trace_event at 1. rewrite Er. cbn [bind]. rewrite Hx, Hy, HC, f_dist_self.
  destruct (@trace_fold (len - 1) 1%nat (snd st)) as (cm' & E & L & Hn); [lia|lia|auto|].
  cbn [Nat.sub] in E. replace (lastc 1) with 0%nat in E by (cbn; now destruct (C 0%nat)). cbn [Nat.sub] in E. change (fpath 0 0) with (f64_of_Z 0) in E.
  exists cm'. split; [|auto].
  assert (EP : b64_plus mode_NE (f64_of_Z 0) (f64_of_Z 0) = f64_of_Z 0) by (vm_compute; reflexivity). rewrite EP.
  assert (EN : trace_comment (b64_div mode_NE (f64_of_Z 0) (f64_of_Z 0)) = None) by (vm_compute; reflexivity).
  destruct (C 0%nat); [rewrite EN|]; cbn [bind]; fold F in E; destruct (F _) as [[[[? ?] ?] ?]| | |]; cbn [bind] in *; try discriminate E; injection E as ->; reflexivity.
Qed.
End Trace.

(** ** Lengths *)
Section Len.
Variables (f : video) (HS : small_coords f).
Lemma coords k : 0 <= ve_x (event_of f k) < 65536 /\ 0 <= ve_y (event_of f k) < 65536.
Proof.
  unfold event_of. destruct (Nat.lt_ge_cases k (length (v_events f))) as [H|H].
  - destruct HS as [Hall _]. rewrite Forall_forall in Hall. apply Hall. now apply nth_In.
  - rewrite nth_overflow by auto. cbn. lia.
Qed.
Lemma dist2_range a b : 0 <= dist2 f a b < 2 ^ 34.
Proof. 
  unfold dist2. pose proof (coords a). pose proof (coords b). assert (K : forall d, -65536 < d < 65536 -> 0 <= d * d < 65536 * 65536) by (intros d Hd; nia).
  pose proof (K (ve_x (event_of f a) - ve_x (event_of f b)) ltac:(lia)). pose proof (K (ve_y (event_of f a) - ve_y (event_of f b)) ltac:(lia)). lia.
Qed.
Lemma dist_case a b : (dist f a b = 0 \/ 1 <= dist f a b)%R.
Proof. unfold dist. destruct (@sqrt_case (dist2 f a b)) as [H|H]; [apply dist2_range|left; rewrite H; apply sqrt_0|auto]. Qed.
Lemma dist_le a b : (0 <= dist f a b <= IZR (2 ^ 17))%R.
Proof.
  split; [apply sqrt_pos|]. unfold dist. pose proof (dist2_range a b). rewrite <- (sqrt_square (IZR (2 ^ 17))) by (apply IZR_le; lia). apply sqrt_le_1_alt. rewrite <- mult_IZR. apply IZR_le. lia.
Qed.
Lemma sum_app l l' : (fold_right Rplus 0 (l ++ l') = fold_right Rplus 0 l + fold_right Rplus 0 l')%R.
Proof. induction l as [|x l IH]; cbn; [lra|]. rewrite IH. lra. Qed.
Lemma walk_S j i : (j <= i)%nat -> (walk f j (S i) = walk f j i + dist f i (S i))%R.
Proof.
  intros H. unfold walk. replace (S i - j)%nat with (S (i - j)) by lia. rewrite seq_S, map_app, sum_app. replace (j + (i - j))%nat with i by lia. cbn. lra.
Qed.
Lemma walk_case j n : (walk f j (j + n) = 0 \/ 1 <= walk f j (j + n))%R /\ (0 <= walk f j (j + n) <= IZR (Z.of_nat n * 2 ^ 17))%R.
Proof.
  induction n as [|n [IH1 IH2]].
  - replace (walk f j (j + 0)) with 0%R by (unfold walk; replace (j + 0 - j)%nat with 0%nat by lia; reflexivity). split; [auto|]. cbn. lra.
  - replace (j + S n)%nat with (S (j + n)) by lia. rewrite walk_S by lia. pose proof (dist_case (j + n) (S (j + n))). pose proof (dist_le (j + n) (S (j + n))) as Hd. split; [lra|].
    replace (Z.of_nat (S n) * 2 ^ 17) with (Z.of_nat n * 2 ^ 17 + 2 ^ 17) by lia. rewrite plus_IZR. lra.
Qed.
Definition fX (k : nat) : Z := ve_x (event_of f k).
Definition fY (k : nat) : Z := ve_y (event_of f k).
Lemma fd_near a b : near 1 (dist f a b) (fd fX fY a b).
Proof. unfold fd, f_dist, dist. apply dist_near. pose proof (dist2_range a b). unfold dist2 in *. unfold fX, fY. lia. Qed.
Lemma path_near j n : Z.of_nat n <= 2 ^ 29 -> near (S n) (walk f j (j + n)) (fpath fX fY j n).
Proof.
  induction n as [|n IH]; intros Hn.
  - replace (walk f j (j + 0)) with 0%R by (unfold walk; replace (j + 0 - j)%nat with 0%nat by lia; reflexivity). unfold fpath. cbn [seq fold_left].
    assert (E : f64_of_Z 0 = B754_zero 53 1024 false) by (vm_compute; reflexivity). rewrite E. constructor; cbn; try reflexivity; lra.
  - rewrite fpath_S. replace (j + S n)%nat with (S (j + n)) by lia. rewrite walk_S by lia. apply plus_near.
    + apply IH. lia.
    + apply (@near_mono 1); [lia|apply fd_near].
    + destruct (walk_case j n) as [W1 W2]. pose proof (dist_case (j + n) (S (j + n))). pose proof (dist_le (j + n) (S (j + n))). lra.
    + destruct (walk_case j n) as [_ W2]. pose proof (dist_le (j + n) (S (j + n))) as Hd. apply Rle_trans with (IZR (2 ^ 50)).
      * apply Rle_trans with (IZR (Z.of_nat n * 2 ^ 17 + 2 ^ 17)); [rewrite plus_IZR; lra|]. apply IZR_le. lia.
      * rewrite <- bpow_2 by lia. apply bpow_le. lia.
    + apply Rle_trans with (1 + / 1000000)%R; [|lra]. apply w_small. lia.
Qed.
(** the comment for the walk from event [j] to event [i] *)
Definition judged (f' : video) (j i : nat) (cs : list comment) : Prop :=
  let L := walk f' j i in let D := dist f' j i in let t := (1 + / 1000000)%R in
  (cs = [] \/ cs = [Bent] \/ cs = [VeryBent]) /\
  (7 * D * t < L -> cs = [VeryBent])%R /\
  (7 / 2 * D * t < L -> L * t <= 7 * D -> cs = [Bent])%R /\
  (L * t <= 7 / 2 * D -> cs = [])%R.
Lemma judged_ok j i : (j < i)%nat -> (i < length (v_events f))%nat ->
  judged f j i (match trace_comment (b64_div mode_NE (fpath fX fY j (i - j)) (fd fX fY j i)) with Some c => [c] | None => [] end).
Proof.
  intros Hj Hi. destruct HS as [_ HL]. pose proof (@path_near j (i - j) ltac:(lia)) as HP. replace (j + (i - j))%nat with i in HP by lia.
  pose proof (fd_near j i) as HD. destruct (walk_case j (i - j)) as [W1 W2]. replace (j + (i - j))%nat with i in * by lia. pose proof (dist_le j i) as D2. pose proof (dist_case j i) as D1.
  assert (H17 : (IZR (2 ^ 17) <= bpow radix2 100)%R) by (rewrite <- bpow_2 by lia; apply bpow_le; lia).
  assert (HB : (walk f j i <= bpow radix2 100)%R).
  { apply Rle_trans with (IZR (2 ^ 50)); [apply Rle_trans with (IZR (Z.of_nat (i - j) * 2 ^ 17)); [lra|apply IZR_le; lia]|]. rewrite <- bpow_2 by lia. apply bpow_le. lia. }
  destruct (verdict HP HD ltac:(lra) W1 HB ltac:(lia)) as (V1 & V2 & V3).
  unfold judged. cbv zeta. split; [|split; [|split]].
  - pose proof (@comment_never_straight (b64_div mode_NE (fpath fX fY j (i - j)) (fd fX fY j i))) as NS.
    set (k := b64_div mode_NE (fpath fX fY j (i - j)) (fd fX fY j i)) in *. clearbody k. unfold trace_comment in *.
    destruct (f_gt k f_seven); auto. destruct (f_gt k f_three_half); auto. destruct (f_gt f_101 k); auto. destruct (f_gt k f_five); auto. now exfalso.
  - intros H. now rewrite V1.
  - intros H H'. now rewrite V2.
  - intros H. now rewrite V3.
Qed.
End Len.

Lemma click_iff e : event_eqb (ve_mouse e) e_lr || event_eqb (ve_mouse e) e_rc || event_eqb (ve_mouse e) e_rr = true <-> click_event e.
Proof. unfold click_event. rewrite !orb_true_iff, !event_eqb_iff. tauto. Qed.

(** Every event that cuts the path, and the first event of the file, get the verdict on the walk to the next one; the
    other events get nothing. *)
Theorem C72_mouse_trace : forall f raw now v st,
  playable f -> v_events f <> [] -> small_coords f -> analyse (of_file f raw now) = Ok v -> analysed v st ->
  exists st', mouse_trace v st = Ok st' /\
    adds (snd st) (snd st') (fun j cs => (forall i, next_click f j i -> judged f j i cs) /\ ((forall i, ~ next_click f j i) -> cs = [])).
Proof.
  intros f raw now v st HP Hne HS EA (fl & El). destruct (analysed_fine El) as [Hg Hc].
  assert (Hlen : length (b_rec v) = length (v_events f)) by exact (events_len HP EA).
  assert (H0 : (0 < length (b_rec v))%nat) by (rewrite Hlen; destruct (v_events f); [congruence|cbn; lia]).
  set (C := fun i => event_eqb (ve_mouse (event_of f i)) e_lr || event_eqb (ve_mouse (event_of f i)) e_rc || event_eqb (ve_mouse (event_of f i)) e_rr).
  assert (HR : forall i, (i < length (b_rec v))%nat -> exists r, vget (b_rec v) i = Ok r /\ r_x r = fX f i /\ r_y r = fY f i /\
     event_eqb (r_mouse r) e_lr || event_eqb (r_mouse r) e_rc || event_eqb (r_mouse r) e_rr = C i).
  { intros i Hi. destruct (event_rec HP EA Hi) as (r & e & s & u & Er & Er' & (He & _) & _ & _ & Hmo & Hx & Hy & _).
    assert (Ee : event_of f i = e) by (unfold event_of; now apply nth_error_nth). exists r. unfold fX, fY, C. rewrite Ee, Hx, Hy, Hmo. auto. }
  destruct (@trace_all v (fX f) (fY f) C HR st H0 Hc) as (cm' & E & L & Hn). eexists. split; [exact E|]. cbn [snd]. split; [congruence|].
  intros j Hj. eexists. split; [apply Hn|].
  assert (Hcl : forall i, (i < length (b_rec v))%nat -> (clicks f i <-> C i = true)).
  { intros i Hi. unfold C. rewrite click_iff. unfold clicks, event_of. rewrite Hlen in Hi. pose proof (nth_error_nth' (v_events f) (VEv e_other 0 0 0) Hi) as En. split.
    - intros (e & He & Hce). rewrite En in He. injection He as ->. exact Hce.
    - intros Hce. eauto. }
  assert (Hlast : forall i, (i <= length (b_rec v))%nat -> (0 < i)%nat -> (lastc C i = 0%nat \/ clicks f (lastc C i)) /\ forall k, (lastc C i < k < i)%nat -> ~ clicks f k).
  { induction i as [|i IH]; intros Hi Hp; [lia|]. cbn [lastc]. destruct (C i) eqn:EC.
    - split; [right; apply Hcl; [lia|auto]|]. intros k Hk. lia.
    - assert (Hno : ~ clicks f i) by (intros Y; apply Hcl in Y; [congruence|lia]). destruct i as [|i]; [cbn; split; auto; intros k Hk; lia|].
      destruct (IH ltac:(lia) ltac:(lia)) as [I1 I2]. split; auto. intros k Hk. destruct (Nat.eq_dec k (S i)) as [->|]; auto. apply I2. lia. }
  assert (Hnext : forall i, (0 < i < length (b_rec v))%nat -> (next_click f j i <-> C i = true /\ lastc C i = j)).
  { intros i Hi. destruct (Hlast i ltac:(lia) ltac:(lia)) as [L1 L2]. assert (L3 : (lastc C i < i)%nat) by (eapply lastc_lt; eauto; lia). split.
    - intros (A1 & A2 & A3 & A4). split; [apply Hcl; [lia|auto]|]. destruct (Nat.lt_trichotomy (lastc C i) j) as [H|[H|H]]; auto; exfalso.
      + destruct A3 as [->|A3]; [lia|]. apply (L2 j); auto.
      + destruct L1 as [L1|L1]; [lia|]. apply (A4 (lastc C i)); auto.
    - intros (A1 & <-). split; auto. split; [apply Hcl; [lia|auto]|]. auto. }
  assert (Hzero : forall i, (0 < i < length (b_rec v))%nat -> ~ next_click f j i -> (if (lastc C i =? j)%nat then tnew (fX f) (fY f) C i else []) = []).
  { intros i Hi Hno. destruct (Nat.eqb_spec (lastc C i) j) as [Ej|]; auto. unfold tnew. destruct (C i) eqn:EC; auto. exfalso. apply Hno. apply Hnext; auto. }
  split.
  - intros i Hnx. assert (Hi : (0 < i < length (b_rec v))%nat).
    { destruct Hnx as (A1 & (e & He & _) & _). split; [lia|]. rewrite Hlen. apply nth_error_Some. congruence. }
    rewrite (@flat_map_one _ _ _ _ i).
    + pose proof Hnx as (Hji & _). apply (Hnext i Hi) in Hnx as [EC EJ]. rewrite EJ, Nat.eqb_refl. unfold tnew. rewrite EC, EJ. apply judged_ok; auto. rewrite <- Hlen. lia.
    + apply seq_NoDup. + apply in_seq. lia.
    + intros y Hy Hne'. apply in_seq in Hy. apply Hzero; [lia|]. intros Hny. apply Hne'.
      destruct Hny as (B1 & B2 & _ & B4), Hnx as (A1 & A2 & _ & A4). destruct (Nat.lt_trichotomy y i) as [H|[H|H]]; auto; exfalso; [apply (A4 y)|apply (B4 i)]; auto.
  - intros Hno. apply flat_map_nil. intros y Hy. apply in_seq in Hy. apply Hzero; [lia|auto].
Qed.
Print Assumptions C72_mouse_trace.

(** From column 0 to column 11 of the row and back to column 1 (336 pixels for a distance of 16), then on to column 2. *)
Definition bent_file : video := file_of b112 1 12 2 (left_at 0 0 0 ++ [VEv e_mv 50 176 0] ++ left_at 0 1 100).
Lemma bent_playable : playable bent_file.
Proof. split; [split; [apply b112_legal|cbn; lia]|reflexivity]. Qed.
Example C72_case : playable bent_file /\ small_coords bent_file /\ next_click bent_file 1 4 /\
  (walk bent_file 1 4 = 336 /\ dist bent_file 1 4 = 16)%R /\ comments_of bent_file [Mouse_trace] = Ok [[]; [VeryBent]; []; []; []].
Proof.
  split; [exact bent_playable|]. split; [split; [apply Forall_forall; intros e He; vm_compute in He; repeat destruct He as [<-|He]; try (cbn; lia); destruct He|vm_compute; intros Z0; discriminate Z0]|].
  split.
  { split; [lia|]. split; [eexists; split; [reflexivity|left; reflexivity]|]. split; [right; eexists; split; [reflexivity|left; reflexivity]|].
    intros k Hk (e & He & Hc). assert (k = 2%nat \/ k = 3%nat) as [-> | ->] by lia; cbv in He; injection He as <-; destruct Hc as [Hc|[Hc|Hc]]; discriminate Hc. }
  split; [|vm_compute; reflexivity].
  assert (D : forall a b n, dist2 bent_file a b = n * n -> 0 <= n -> dist bent_file a b = IZR n).
  { intros a b n E Hn. unfold dist. rewrite E, mult_IZR. apply sqrt_square. now apply IZR_le. }
  split; [|apply (D 1%nat 4%nat 16); [vm_compute; reflexivity|lia]].
  unfold walk. cbn [Nat.sub seq map fold_right]. rewrite (D 1%nat 2%nat 176), (D 2%nat 3%nat 160), (D 3%nat 4%nat 0); try lia; try (vm_compute; reflexivity). lra.
Qed.
(** A perfectly straight move is never called suspicious, although the code has the comment (it asks for a ratio
    below 1.01 and above 5). *)
Theorem C72_refuted_straight : playable far_file /\ next_click far_file 3 5 /\ walk far_file 3 5 = dist far_file 3 5 /\
  comments_of far_file [Mouse_trace] = Ok [[]; []; []; []; []; []].
Proof.
  split; [exact far_playable|]. split.
  { split; [lia|]. split; [eexists; split; [reflexivity|left; reflexivity]|]. split; [right; eexists; split; [reflexivity|left; reflexivity]|].
    intros k Hk (e & He & Hc). assert (k = 4%nat) as -> by lia; cbv in He; injection He as <-; destruct Hc as [Hc|[Hc|Hc]]; discriminate Hc. }
  split; [|vm_compute; reflexivity].
  assert (D : forall a b n, dist2 far_file a b = n * n -> 0 <= n -> dist far_file a b = IZR n).
  { intros a b n E Hn. unfold dist. rewrite E, mult_IZR. apply sqrt_square. now apply IZR_le. }
  unfold walk. cbn [Nat.sub seq map fold_right]. rewrite (D 3%nat 4%nat 144), (D 4%nat 5%nat 0), (D 3%nat 5%nat 144); try lia; try (vm_compute; reflexivity). lra.
Qed.
