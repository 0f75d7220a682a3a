(** * C74: the running clock. C75: the speeds. C76: the ratios. C77: the estimated time and STNB. *)
From Coq Require Import ZArith Reals Lia Lra Bool List Sorted.
From Flocq Require Import Core IEEE754.BinarySingleNaN IEEE754.Binary IEEE754.Bits.
From Verif Require Import Base Spec BaseFacts LayMine LayMineProofs Metrics Matrix Solve MineBoard MineBoardProofs BoardCache Evf EvfSpec PropsEvf BaseVideo
  PropsGame PropsSetters Features FloatTime FloatQuot FloatTrace BigNum FloatNear BigNumProofs PropsBigNum PropsReplay Stats StatsProofs.
Import ListNotations.
Open Scope Z_scope.
Local Notation rnd := (round radix2 (SpecFloat.fexp 53 1024) ZnearestE).
Local Notation val := (B2R 53 1024).

(** ** The vocabulary *)

(** A game played on a new object: whatever is called, in whatever order ([now0]: the clock at the start). *)
Definition played (now0 : Z) (cs : list vcall) (g : game) : Prop :=
  exists b pix g0, game_new b pix now0 = Ok g0 /\ gexec g0 cs = Ok g.
Definition gstate (g : game) : game_state := b_state (g_bv g).
(** [x] is the double nearest to the real number [a] *)
Definition nearest (x : binary64) (a : Rdefinitions.R) : Prop := is_finite 53 1024 x = true /\ val x = rnd a.
(** [x] is [a] with a relative error of at most [k] / 2^51 *)
Definition about (k : nat) (x : binary64) (a : Rdefinitions.R) : Prop :=
  is_finite 53 1024 x = true /\ (Rabs (val x - a) <= a * (INR k * bpow radix2 (-51)))%R.
(** microseconds since the recording began, less than 2^32 milliseconds *)
Definition in_range (g : game) (now : Z) : Prop := now - b_video_start (g_bv g) < 2 ^ 32 * 1000 - 500.

(** ** Doubles *)
Lemma near_about k a x : (Z.of_nat k <= 2 ^ 40) -> near k a x -> about k x a.
Proof. intros Hk H. split; [exact (nr_fin H)|exact (near_rel H Hk)]. Qed.
Lemma w1 : (w ^ 1 <= 2 /\ w ^ 2 <= 2 /\ w ^ 3 <= 2 /\ w ^ 0 <= 2)%R.
Proof.
  assert (X : forall n, (Z.of_nat n <= 2 ^ 40) -> (w ^ n <= 2)%R) by (intros n H; destruct (w_lin H); lra).
  split; [apply X; lia|]. split; [apply X; lia|]. split; apply X; lia.
Qed.
Lemma big_ok : (IZR (2 ^ 53) <= bpow radix2 1015 /\ IZR (2 ^ 53) * 1000 <= bpow radix2 1015)%R.
Proof.
  assert (E : (IZR (2 ^ 53) = bpow radix2 53)%R) by (rewrite bpow_2 by lia; reflexivity). rewrite E. split; [apply bpow_le; lia|].
  apply Rle_trans with (bpow radix2 53 * bpow radix2 10)%R; [|rewrite <- bpow_plus; apply bpow_le; lia].
  apply Rmult_le_compat_l; [apply bpow_ge_0|]. simpl. lra.
Qed.
Lemma sized_quot (a b : Z) : 0 <= a -> a < 2 ^ 100 -> 0 < b -> b < 2 ^ 100 -> sized (IZR a / IZR b).
Proof.
  intros Ha Ha' Hb Hb'. apply IZR_lt in Ha', Hb'. rewrite <- bpow_2 in Ha', Hb' by lia.
  assert (B0 : (1 <= IZR b)%R) by (apply IZR_le; lia). assert (Bi : (0 < / IZR b)%R) by (apply Rinv_0_lt_compat; lra).
  assert (Bl : (bpow radix2 (-100) <= / IZR b)%R). { change (-100)%Z with (- (100))%Z. rewrite bpow_opp. apply Rinv_le_contravar; lra. }
  assert (Bu : (/ IZR b <= 1)%R) by (rewrite <- Rinv_1; apply Rinv_le_contravar; lra).
  split.
  - destruct (Z.eq_dec a 0) as [->|Hn]; [left; unfold Rdiv; ring|right]. assert (A1 : (1 <= IZR a)%R) by (apply IZR_le; lia).
    apply Rle_trans with (bpow radix2 (-100)); [apply bpow_le; lia|]. unfold Rdiv. nra.
  - assert (A0 : (0 <= IZR a)%R) by (apply IZR_le; lia). apply Rle_trans with (bpow radix2 100); [|apply bpow_le; lia]. unfold Rdiv. nra.
Qed.
Lemma quot_nearest (a b : Z) : 0 <= a < 2 ^ 53 -> 0 < b < 2 ^ 53 ->
  near 1 (IZR a / IZR b) (fdiv (f64_of_Z a) (f64_of_Z b)) /\ nearest (fdiv (f64_of_Z a) (f64_of_Z b)) (IZR a / IZR b).
Proof.
  intros Ha Hb. destruct (exact_near Ha) as [Na Va]. destruct (@exact_near b ltac:(lia)) as [Nb Vb].
  destruct (quot_near Na Nb) as [N V]; [apply IZR_lt; lia|apply sized_quot; lia|apply w1|].
  split; [exact N|]. split; [exact (nr_fin N)|]. rewrite V, Va, Vb. reflexivity.
Qed.
Lemma ms_near n : 0 <= n < 2 ^ 53 -> near 1 (IZR n / 1000) (ms_to_s n) /\ nearest (ms_to_s n) (IZR n / 1000).
Proof. intros H. apply (@quot_nearest n 1000); lia. Qed.
Lemma ms_le a b : 0 <= a <= b -> b < 2 ^ 53 -> (val (ms_to_s a) <= val (ms_to_s b))%R.
Proof.
  intros H Hb. destruct (@ms_near a) as [_ [_ ->]]; [lia|]. destruct (@ms_near b) as [_ [_ ->]]; [lia|].
  apply round_le; [apply FLT_exp_valid; reflexivity|apply valid_rnd_N|]. assert (IZR a <= IZR b)%R by (apply IZR_le; lia). lra.
Qed.
(** dividing by a time given in milliseconds *)
Lemma rate_near (a : nat) ms : Z.of_nat a < 2 ^ 53 -> 0 < ms < 2 ^ 53 ->
  about 2 (fdiv (f_of a) (ms_to_s ms)) (1000 * INR a / IZR ms).
Proof.
  intros Ha Hm. apply near_about; [lia|]. destruct (@exact_near (Z.of_nat a) ltac:(lia)) as [Na _]. destruct (@ms_near ms ltac:(lia)) as [Nm _].
  assert (M : (0 < IZR ms)%R) by (apply IZR_lt; lia).
  replace (1000 * INR a / IZR ms)%R with (IZR (Z.of_nat a) / (IZR ms / 1000))%R by (rewrite INR_IZR_INZ; field; lra).
  destruct (quot_near Na Nm) as [N _]; [lra| |apply w1|exact N].
  replace (IZR (Z.of_nat a) / (IZR ms / 1000))%R with (IZR (Z.of_nat a * 1000) / IZR ms)%R by (rewrite mult_IZR; field; lra).
  apply sized_quot; lia.
Qed.
Lemma ms_zero : ms_to_s 0 = B754_zero 53 1024 false. Proof. vm_compute. reflexivity. Qed.
Lemma div_zero (a : nat) : Z.of_nat a < 2 ^ 53 ->
  (a <> 0%nat -> fdiv (f_of a) (B754_zero 53 1024 false) = B754_infinity 53 1024 false) /\
  (a = 0%nat -> is_nan 53 1024 (fdiv (f_of a) (B754_zero 53 1024 false)) = true).
Proof.
  intros Ha. split.
  - intros Hn. destruct (@exact_near (Z.of_nat a) ltac:(lia)) as [N V]. unfold f_of. pose proof (nr_sign N) as S. pose proof (nr_fin N) as F.
    destruct (f64_of_Z (Z.of_nat a)) as [s|s|s pl e|s m e e0] eqn:E; try discriminate F.
    + exfalso. change (val (B754_zero 53 1024 s)) with 0%R in V. assert (Z.of_nat a = 0) by (apply eq_IZR; congruence). lia.
    + cbn in S. subst s. reflexivity.
  - intros ->. reflexivity.
Qed.

(** ** C74: the running clock *)
Lemma played_SI now0 cs g : played now0 cs g -> SI now0 (step_clocks cs) g.
Proof. intros (b & pix & g0 & E0 & E). eapply game_SI; eauto. Qed.
Lemma millis_range now past : 0 <= millis_since now past. Proof. unfold millis_since. apply Z.div_pos; lia. Qed.
Lemma millis_small g now : in_range g now -> 0 <= millis_since now (b_video_start (g_bv g)) < 2 ^ 32.
Proof.
  unfold in_range, millis_since. intros H. split; [apply Z.div_pos; lia|]. apply Z.div_lt_upper_bound; lia.
Qed.

(** In every state but Playing the clock can be read at any moment: 0 before the game, the seconds since
    the first action while flags are put, the result after the game. *)
Theorem C74_clock : forall now0 cs g now, played now0 cs g ->
  (gstate g = Ready -> exists x, get_time g now = Ok x /\ val x = 0%R) /\
  (gstate g = PreFlaging -> b_video_start (g_bv g) <= now -> in_range g now -> exists n x, get_time g now = Ok x /\
     nearest x (IZR n / 1000) /\ 0 <= now - b_video_start (g_bv g) - n * 1000 < 1000) /\
  (over (gstate g) -> exists ms, get_rtime_ms (g_bv g) = Some ms /\ exists x, get_time g now = Ok x /\ nearest x (IZR ms / 1000)).
Proof.
  intros now0 cs g now H. pose proof (played_SI H) as [S0 Ssm S1 S2 S3 S4 S5 S6 S7]. unfold gstate, get_time in *. split; [|split].
  - intros ->. eexists. split; [reflexivity|]. reflexivity.
  - intros -> L Hr. pose proof (millis_small Hr) as R. exists (millis_since now (b_video_start (g_bv g))). eexists. split; [reflexivity|]. split; [apply ms_near; lia|].
    unfold millis_since. rewrite Z.max_r by lia. pose proof (Z.div_mod (now - b_video_start (g_bv g)) 1000 ltac:(lia)). pose proof (Z.mod_pos_bound (now - b_video_start (g_bv g)) 1000 ltac:(lia)). lia.
  - intros Ho. destruct (S6 Ho) as (_ & _ & Hm & _). exists (v_rtime_ms (b_meta (g_bv g))). unfold get_rtime_ms.
    destruct Ho as [-> | ->]; (split; [reflexivity|]; eexists; split; [reflexivity|]; apply ms_near; lia).
Qed.
Print Assumptions C74_clock.

(** During the game: [t0] is the clock at the event that opened the first cell. From half a millisecond after
    it the clock can be read, and it shows the time since [t0], at most 1.5 ms behind and at most 0.5 ms ahead. *)
Theorem C74_playing : forall now0 cs1 g1 t0 stamp e p g2 cs2 g now,
  played now0 cs1 g1 -> gstate g1 <> Playing -> gcall1 g1 (VStep t0 stamp e p) = Ok g2 -> gexec g2 cs2 = Ok g ->
  (forall cs cs' g', cs2 = cs ++ cs' -> gexec g2 cs = Ok g' -> gstate g' = Playing) ->
  StronglySorted Z.le (now0 :: step_clocks cs1 ++ [t0]) -> t0 + 500 <= now -> in_range g now ->
  exists n x, get_time g now = Ok x /\ nearest x (IZR n / 1000) /\ 0 <= n < 2 ^ 32 /\ (now - t0) - 1500 < n * 1000 < (now - t0) + 500.
Proof.
  intros now0 cs1 g1 t0 stamp e p g2 cs2 g now H Hnp E2 E HP Hs Hn Hr. pose proof (played_SI H) as HS1. pose proof (call_SI HS1 E2) as HS2.
  pose proof (playing_clocks HS2 HP E) as Ec. assert (Hp2 : b_state (g_bv g2) = Playing) by (apply (HP [] cs2); reflexivity).
  assert (Hp : b_state (g_bv g) = Playing) by (apply (HP cs2 []); [now rewrite app_nil_r|exact E]).
  assert (K : b_game_start (g_bv g2) = time_ms_between t0 (b_video_start (g_bv g2)) /\ b_video_start (g_bv g2) <= t0).
  { cbn [gcall1] in E2. apply bind_ok in E2 as ((v' & o) & E2 & Eg). injection Eg as <-. cbn [g_bv] in *. unfold gstate in Hnp.
    destruct (bv_step_cases E2) as [(_ & -> & _)|(Hl & q & m & oo & Es & K)]; [contradiction|].
    destruct oo as [a|]; [|destruct K as (-> & _); contradiction]. destruct K as (_ & _ & Hst & _ & _ & Hck & _).
    rewrite Hst in Hp2. rewrite Hp2 in Hck. unfold clock, new_clock in Hck. pose proof (si_same HS1) as Hsm.
    assert (L : b_video_start (g_bv g1) <= t0) by (eapply sorted_last; [exact Hs|apply (si_vs HS1)]).
    destruct (m_state (b_mb (g_bv g1))); try (destruct Hl as [Hl|[Hl|Hl]]; discriminate Hl).
    - injection Hck as -> ->. split; [reflexivity|lia].
    - injection Hck as -> ->. split; [reflexivity|exact L].
    - exfalso. apply Hnp. now apply Hsm. }
  destruct K as [Eg Hle]. injection Ec as Ec1 Ec2. rewrite <- Ec1 in Eg, Hle. rewrite <- Ec2 in Eg.
  unfold get_time. rewrite Hp. unfold elapsed_ms, u32sub. pose proof (millis_small Hr) as R. rewrite Z.mod_small by exact R.
  unfold in_range in Hr. set (vs := b_video_start (g_bv g)) in *. set (n := millis_since now vs - b_game_start (g_bv g)).
  assert (B : (now - t0) - 1500 < n * 1000 < (now - t0) + 500 /\ 0 <= n).
  { unfold n, time_ms_between, millis_since in *. rewrite Z.max_r in Eg by lia. rewrite Z.max_r by lia.
    pose proof (Z.div_mod (now - vs) 1000 ltac:(lia)). pose proof (Z.mod_pos_bound (now - vs) 1000 ltac:(lia)).
    pose proof (Z.div_mod (t0 - vs + 500) 1000 ltac:(lia)). pose proof (Z.mod_pos_bound (t0 - vs + 500) 1000 ltac:(lia)).
    assert (Hd : (t0 - vs + 500) / 1000 <= (now - vs) / 1000) by (apply Z.div_le_mono; lia).
    assert (Hu : (now - vs) / 1000 <= 4294967295) by (rewrite Z.max_r in R by lia; lia).
    rewrite Z.min_r in Eg by lia. lia. }
  assert (Hsz : 0 <= b_game_start (g_bv g)) by (rewrite Eg; apply between_range).
  destruct (Z.leb_spec (b_game_start (g_bv g)) (millis_since now vs)); [|lia]. cbn [bind]. fold n. exists n. eexists. split; [reflexivity|].
  split; [apply ms_near; lia|]. split; [lia|]. lia.
Qed.
Print Assumptions C74_playing.

(** The clock never runs backwards. *)
Theorem C74_monotone : forall now0 cs g now1 now2 x1 x2, played now0 cs g -> now1 <= now2 -> in_range g now2 ->
  get_time g now1 = Ok x1 -> get_time g now2 = Ok x2 -> (val x1 <= val x2)%R.
Proof.
  intros now0 cs g now1 now2 x1 x2 H L Hr. pose proof (played_SI H) as [S0 Ssm S1 S2 S3 S4 S5 S6 S7].
  assert (M : millis_since now1 (b_video_start (g_bv g)) <= millis_since now2 (b_video_start (g_bv g))) by (unfold millis_since; apply Z.div_le_mono; lia).
  pose proof (millis_small Hr) as R. pose proof (@millis_range now1 (b_video_start (g_bv g))) as R1.
  unfold get_time, elapsed_ms, u32sub. rewrite !(Z.mod_small _ (2 ^ 32)) by lia.
  destruct (b_state (g_bv g)).
  - intros E1 E2; injection E1 as <-; injection E2 as <-; lra.
  - intros E1 E2; injection E1 as <-; injection E2 as <-. apply ms_le; lia.
  - destruct (Z.leb_spec (b_game_start (g_bv g)) (millis_since now1 (b_video_start (g_bv g)))); [|discriminate].
    destruct (Z.leb_spec (b_game_start (g_bv g)) (millis_since now2 (b_video_start (g_bv g)))); [|discriminate]. cbn [bind].
    intros E1 E2; injection E1 as <-; injection E2 as <-. apply ms_le; lia.
  - intros E1 E2; injection E1 as <-; injection E2 as <-; lra.
  - intros E1 E2; injection E1 as <-; injection E2 as <-; lra.
  - intros E1 E2; injection E1 as <-; injection E2 as <-; lra.
Qed.
Print Assumptions C74_monotone.

(** The clock and the result: what the clock showed at any moment before the event that ends the game is not
    more than the result time; what it shows at that moment is the result or one millisecond less. *)
Theorem C74_result : forall now0 cs g now now' stamp e p g' x, played now0 cs g -> gstate g = Playing ->
  gcall1 g (VStep now' stamp e p) = Ok g' -> over (gstate g') -> now <= now' -> in_range g now' -> get_time g now = Ok x ->
  exists ms n, get_rtime_ms (g_bv g') = Some ms /\ nearest x (IZR n / 1000) /\ 0 <= n <= ms /\ ms < 2 ^ 32 /\ (now = now' -> ms <= n + 1) /\
    exists y, get_time g' now' = Ok y /\ nearest y (IZR ms / 1000) /\ (val x <= val y)%R.
Proof.
  intros now0 cs g now now' stamp e p g' x H Hp E Ho L Hr Ex. pose proof (played_SI H) as [S0 Ssm S1 S2 S3 S4 S5 S6 S7]. unfold gstate in *.
  pose proof (call_SI (played_SI H) E) as [_ _ _ _ _ _ _ S6' _].
  cbn [gcall1] in E. apply bind_ok in E as ((v' & o) & E & Eg). injection Eg as <-. cbn [g_bv] in *.
  destruct (bv_step_cases E) as [(_ & -> & _)|(Hl & q & m & oo & Es & K)]; [rewrite Hp in Ho; destruct Ho; discriminate|].
  destruct oo as [a|]; [|destruct K as (-> & _); cbn in Ho; rewrite Hp in Ho; destruct Ho; discriminate].
  destruct K as (_ & _ & Hst & _ & _ & _ & _ & Hov). rewrite Hst in Ho. destruct (Hov Ho) as (L1 & L2 & _).
  destruct (S6' ltac:(rewrite Hst; exact Ho)) as (_ & _ & Rm & _).
  unfold get_time in Ex. rewrite Hp in Ex. apply bind_ok in Ex as (n & En & Ex). injection Ex as <-. unfold elapsed_ms, u32sub in En.
  assert (M : millis_since now (b_video_start (g_bv g)) <= millis_since now' (b_video_start (g_bv g))) by (unfold millis_since; apply Z.div_le_mono; lia).
  pose proof (millis_small Hr) as R. pose proof (@millis_range now (b_video_start (g_bv g))) as R1. rewrite Z.mod_small in En by lia.
  destruct (Z.leb_spec (b_game_start (g_bv g)) (millis_since now (b_video_start (g_bv g)))); [|discriminate]. injection En as <-.
  assert (T : millis_since now' (b_video_start (g_bv g)) <= time_ms_between now' (b_video_start (g_bv g)) <= millis_since now' (b_video_start (g_bv g)) + 1).
  { unfold millis_since, time_ms_between in *. set (z := Z.max 0 (now' - b_video_start (g_bv g))) in *. 
    assert (z / 1000 <= (z + 500) / 1000) by (apply Z.div_le_mono; lia).
    assert ((z + 500) / 1000 <= (z + 1 * 1000) / 1000) by (apply Z.div_le_mono; lia). rewrite Z.div_add in * by lia. lia. }
  exists (v_rtime_ms (b_meta v')), (millis_since now (b_video_start (g_bv g)) - b_game_start (g_bv g)). rewrite L2 in *.
  split. { unfold get_rtime_ms. rewrite Hst, L2. destruct Ho as [-> | ->]; reflexivity. }
  split; [apply ms_near; lia|]. split; [lia|]. split; [lia|]. split; [intros <-; lia|].
  exists (rtime v'). split; [unfold get_time; cbn [g_bv]; rewrite Hst; destruct Ho as [-> | ->]; reflexivity|].
  unfold rtime. rewrite L2. split; [apply ms_near; lia|]. apply ms_le; lia.
Qed.
Print Assumptions C74_result.

(** *** Cases and the crash *)
Definition stat_session : list vcall :=
  [VStep 1000000 [48] e_rc (8, 40)%nat; VStep 1010000 [48] e_rr (8, 40)%nat;
   VStep 1020000 [48] e_lc (8, 24)%nat; VStep 1100700 [48] e_lr (8, 24)%nat].
Definition stat_end : list vcall := [VStep 1300000 [51] e_lc (8, 8)%nat; VStep 1350200 [52] e_lr (8, 8)%nat].
Definition state_of (r : R game) : option game_state := match r with Ok g => Some (gstate g) | _ => None end.
Definition run (cs : list vcall) : R game := let* g := game_new demo_board 16 900000 in gexec g cs.
Lemma run_played cs g : run cs = Ok g -> played 900000 cs g.
Proof. unfold run. intros E. apply bind_ok in E as (g0 & E0 & E). exists demo_board, 16, g0. auto. Qed.
Definition read_clock (r : R game) (now : Z) : option Z :=
  match r with Ok g => match get_time g now with Ok x => Some (bits_of_b64 x) | _ => None end | _ => None end.
(** The game is opened 100.7 ms after the recording began; 0.6 ms and 50 ms later the clock shows 0.000 and
    0.049, at the end (249.5 ms later) 0.249, the result. *)
Example C74_case :
  state_of (run (firstn 3 stat_session)) = Some PreFlaging /\ state_of (run stat_session) = Some Playing /\
  state_of (run (stat_session ++ stat_end)) = Some Win /\
  read_clock (run stat_session) 1101300 = Some (bits_of_b64 (ms_to_s 0)) /\
  read_clock (run stat_session) 1150700 = Some (bits_of_b64 (ms_to_s 49)) /\
  read_clock (run stat_session) 1350200 = Some (bits_of_b64 (ms_to_s 249)) /\
  read_clock (run (stat_session ++ stat_end)) 9999999 = Some (bits_of_b64 (ms_to_s 249)) /\
  StronglySorted Z.le (900000 :: step_clocks (firstn 3 stat_session) ++ [1100700]).
Proof. repeat (split; [vm_compute; reflexivity|]). cbn. repeat constructor; lia. Qed.
Definition stat_bv : bv := Eval vm_compute in match run stat_session with Ok g => g_bv g | _ => of_file demo_video [] 0 end.
(** The full claim ("the clock can be read at any moment") is false: the game is opened 100.7 ms after the
    recording began, its start is stored as 101 ms; read in the next 0.2 ms, the clock computes 100 - 101 in u32. *)
Theorem C74_refuted : exists g, run stat_session = Ok g /\ gstate g = Playing /\
  forall now, 1100700 <= now < 1101000 -> get_time g now = Panic.
Proof.
  exists (Game stat_bv no_speeds f_zero). split; [vm_compute; reflexivity|]. split; [vm_compute; reflexivity|]. intros now H.
  unfold get_time, elapsed_ms, u32sub, millis_since. change (b_state (g_bv (Game stat_bv no_speeds f_zero))) with Playing.
  change (b_video_start (g_bv (Game stat_bv no_speeds f_zero))) with 1000000. change (b_game_start (g_bv (Game stat_bv no_speeds f_zero))) with 101.
  rewrite Z.max_r by lia. replace ((now - 1000000) / 1000) with 100; [reflexivity|].
  apply Z.div_unique with (now - 1100000); lia.
Qed.
Print Assumptions C74_refuted.

(** ** C75: the speeds *)
Lemma over_getters now0 cs g : played now0 cs g -> over (gstate g) ->
  (forall k, get_counter (g_bv g) k = Ok (key_of (b_mb (g_bv g)) k)) /\
  get_ce (g_bv g) = Ok (Some (m_ce (b_mb (g_bv g)))) /\ get_bbbv_solved (g_bv g) = Ok (Some (m_solved (b_mb (g_bv g)))) /\
  (forall k now, get_speed g k now = Ok (fdiv (f_of (key_of (b_mb (g_bv g)) k)) (rtime (g_bv g)))) /\
  get_rtime_ms (g_bv g) = Some (v_rtime_ms (b_meta (g_bv g))) /\ 0 <= v_rtime_ms (b_meta (g_bv g)) < 2 ^ 32 /\
  (exists n, cal_bbbv (v_board (b_meta (g_bv g))) = Ok n /\ v_bbbv (b_meta (g_bv g)) = Z.of_nat n).
Proof.
  intros H Ho. pose proof (played_SI H) as [_ _ _ _ _ _ _ S6 _]. unfold gstate in Ho. destruct (S6 Ho) as (_ & Hs & Hm & (rs & r & Er & Ek) & Hb).
  unfold keys, rkeys in Ek. injection Ek as K1 K2 K3 K4 K5 K6.
  split; [intros k; unfold get_counter; destruct Ho as [-> | ->]; reflexivity|].
  assert (G : forall f, get_final (g_bv g) f = Ok (Some (f r))) by (intros f; unfold get_final; rewrite Er, rev_app_distr; destruct Ho as [-> | ->]; reflexivity).
  unfold get_ce, get_bbbv_solved. rewrite !G, K5, K6. do 2 (split; [reflexivity|]).
  split. { intros k now. unfold get_speed. rewrite Hs. destruct Ho as [-> | ->]; destruct k; reflexivity. }
  split; [unfold get_rtime_ms; destruct Ho as [-> | ->]; reflexivity|]. auto.
Qed.
(** a speed: [a] per [ms] milliseconds, in 1/s; the doubles' answer for no time at all *)
Definition is_rate (x : binary64) (a : nat) (ms : Z) : Prop :=
  (ms <> 0 -> about 2 x (1000 * INR a / IZR ms)) /\
  (ms = 0 -> a <> 0%nat -> x = B754_infinity 53 1024 false) /\ (ms = 0 -> a = 0%nat -> is_nan 53 1024 x = true).
Lemma rate_ok (a : nat) ms : Z.of_nat a < 2 ^ 53 -> 0 <= ms < 2 ^ 32 -> is_rate (fdiv (f_of a) (ms_to_s ms)) a ms.
Proof.
  intros Ha Hm. destruct (div_zero Ha) as [D1 D2]. split; [intros Hn; apply rate_near; lia|]. split; intros -> Hn; rewrite ms_zero; auto.
Qed.

(** After the game: every speed is its counter divided by the result time (two roundings). *)
Theorem C75_after_game : forall now0 cs g, played now0 cs g -> over (gstate g) ->
  exists ms, get_rtime_ms (g_bv g) = Some ms /\ 0 <= ms < 2 ^ 32 /\
  (forall k now, exists n x, get_counter (g_bv g) k = Ok n /\ get_speed g k now = Ok x /\ (Z.of_nat n < 2 ^ 53 -> is_rate x n ms)) /\
  (exists n x, get_bbbv_solved (g_bv g) = Ok (Some n) /\ get_bbbv_s g = Ok (Some x) /\ (Z.of_nat n < 2 ^ 53 -> is_rate x n ms)).
Proof.
  intros now0 cs g H Ho. destruct (over_getters H Ho) as (G1 & G2 & G3 & G4 & G5 & G6 & _).
  exists (v_rtime_ms (b_meta (g_bv g))). split; [exact G5|]. split; [exact G6|]. split.
  - intros k now. rewrite G1, G4. eexists. eexists. split; [reflexivity|]. split; [reflexivity|]. intros Hn. now apply rate_ok.
  - unfold get_bbbv_s. rewrite G3. cbn [bindo bind]. exists (m_solved (b_mb (g_bv g))), (fdiv (f_of (m_solved (b_mb (g_bv g)))) (rtime (g_bv g))).
    split; [reflexivity|]. split; [unfold gstate in Ho; destruct Ho as [-> | ->]; reflexivity|]. intros Hn. now apply rate_ok.
Qed.
Print Assumptions C75_after_game.

(** During the game: the counter divided by what the clock shows; it can be computed exactly when the clock can
    be read. (In the first millisecond the answer is not a number.) *)
Theorem C75_playing : forall now0 cs g now k, played now0 cs g -> gstate g = Playing ->
  (get_time g now = Panic -> get_speed g k now = Panic) /\
  (forall x, get_time g now = Ok x -> exists t n y, x = ms_to_s t /\ 0 <= t < 2 ^ 32 /\ get_counter (g_bv g) k = Ok n /\ get_speed g k now = Ok y /\
     (Z.of_nat n < 2 ^ 43 -> (t <> 0 -> nearest y (1000 * INR n / IZR t)) /\ (t = 0 -> is_finite 53 1024 y = false))).
Proof.
  intros now0 cs g now k H Hp. pose proof (played_SI H) as [_ _ _ _ _ Hst _ _ _]. unfold gstate in Hp. unfold get_time, get_speed, get_counter. rewrite Hp. cbn [bind].
  split.
  - intros E. destruct (elapsed_ms (g_bv g) now); cbn [bind] in *; congruence.
  - intros x E. apply bind_ok in E as (t & Et & E). injection E as <-. rewrite Et. cbn [bind].
    assert (Ht : 0 <= t < 2 ^ 32).
    { unfold elapsed_ms, u32sub in Et. pose proof (Z.mod_pos_bound (millis_since now (b_video_start (g_bv g))) (2 ^ 32) ltac:(lia)).
      destruct (Z.leb_spec (b_game_start (g_bv g)) (millis_since now (b_video_start (g_bv g)) mod 2 ^ 32)); [|discriminate]. injection Et as <-. lia. }
    exists t, (key_of (b_mb (g_bv g)) k). eexists. split; [reflexivity|]. split; [exact Ht|]. split; [reflexivity|]. split; [reflexivity|].
    set (n := key_of (b_mb (g_bv g)) k). intros Hn.
    assert (Hx : fmul (f_of n) (f64_of_Z 1000) = f64_of_Z (Z.of_nat n * 1000)).
    { destruct (@exact_near (Z.of_nat n) ltac:(lia)) as [N1 V1]. destruct (@exact_near 1000 ltac:(lia)) as [N2 V2]. destruct (@exact_near (Z.of_nat n * 1000) ltac:(lia)) as [N3 V3].
      destruct (mult_near N1 N2) as [N V].
      { rewrite <- mult_IZR. replace (IZR (Z.of_nat n * 1000)) with (IZR (Z.of_nat n * 1000) / IZR 1)%R by (unfold Rdiv; rewrite Rinv_1; ring). apply sized_quot; lia. }
      { apply w1. }
      unfold f_of. apply B2R_Bsign_inj; [exact (nr_fin N)|exact (nr_fin N3)| |etransitivity; [exact (nr_sign N)|symmetry; exact (nr_sign N3)]].
      rewrite V, V1, V2, V3, <- mult_IZR. apply int_exact. lia. }
    rewrite Hx. split.
    + intros Ht0. destruct (@quot_nearest (Z.of_nat n * 1000) t) as [_ Q]; [lia|lia|]. 
      replace (1000 * INR n / IZR t)%R with (IZR (Z.of_nat n * 1000) / IZR t)%R; [exact Q|]. rewrite mult_IZR, <- INR_IZR_INZ. unfold Rdiv. ring.
    + intros ->. destruct (@div_zero (n * 1000)%nat) as [D1 D2]; [lia|]. unfold f_of in D1, D2. rewrite Nat2Z.inj_mul in D1, D2. change (Z.of_nat 1000) with 1000 in D1, D2.
      change (f64_of_Z 0) with (B754_zero 53 1024 false). destruct (Nat.eq_dec n 0) as [E0|E0].
      * specialize (D2 ltac:(lia)). destruct (fdiv _ _); try discriminate D2; reflexivity.
      * rewrite D1 by lia. reflexivity.
Qed.
Print Assumptions C75_playing.

(** Before the game all speeds are 0. *)
Theorem C75_before : forall g k now, gstate g = Ready \/ gstate g = PreFlaging -> exists x, get_speed g k now = Ok x /\ val x = 0%R.
Proof. intros g k now. unfold gstate, get_speed. intros [-> | ->]; (eexists; split; [reflexivity|]); reflexivity. Qed.
Print Assumptions C75_before.

(** Playback: [n] milliseconds after the opening click, the counter at the current event divided by that time;
    0 at (and before) the opening click. *)
Theorem C75_playback : forall g k now n c, gstate g = Display -> get_counter (g_bv g) k = Ok c -> Z.of_nat c < 2 ^ 53 ->
  (0 < n < 2 ^ 32 -> g_time g = ms_to_s n -> exists x, get_speed g k now = Ok x /\ about 2 x (1000 * INR c / IZR n)) /\
  (is_finite 53 1024 (g_time g) = true -> (val (g_time g) <= 0)%R -> exists x, get_speed g k now = Ok x /\ val x = 0%R).
Proof.
  intros g k now n c Hd Hc Hn. unfold gstate in Hd. unfold get_speed. rewrite Hd, Hc. cbn [bind].
  assert (L1 : f_lt f_00099 (ms_to_s 1) = true) by (vm_compute; reflexivity). assert (F1 : is_finite 53 1024 f_00099 = true) by (vm_compute; reflexivity).
  assert (P1 : f_lt f_zero f_00099 = true) by (vm_compute; reflexivity). apply lt_finite in P1; [|reflexivity|exact F1]. change (val f_zero) with 0%R in P1. 
  split.
  - intros Hr Et. destruct (@ms_near 1 ltac:(lia)) as [M1 _]. destruct (@ms_near n ltac:(lia)) as [M2 _].
    apply lt_finite in L1; [|exact F1|exact (nr_fin M1)]. pose proof (@ms_le 1 n ltac:(lia) ltac:(lia)) as Lm. rewrite Et.
    destruct (f_lt (ms_to_s n) f_00099) eqn:E; [apply lt_finite in E; [lra|exact (nr_fin M2)|exact F1]|]. eexists. split; [reflexivity|].
    apply rate_near; lia.
  - intros Ff Hneg. destruct (f_lt (g_time g) f_00099) eqn:E; [eexists; split; [reflexivity|]; reflexivity|].
    exfalso. assert (X : f_lt (g_time g) f_00099 = true) by (apply lt_finite; [exact Ff|exact F1|lra]). congruence.
Qed.
Print Assumptions C75_playback.

(** The speed of effective clicks and the two quality numbers divide by (or are powers of) the playback position,
    which is 0 in a game that was just played: after every game they are 0. *)
Theorem C75_refuted : forall powf now0 cs g, (forall y, powf f_zero y = f_zero) -> played now0 cs g -> over (gstate g) ->
  exists x y z, get_ce_s g = Ok (Some x) /\ val x = 0%R /\ get_rqp powf g = Ok (Some y) /\ get_qg powf g = Ok (Some z) /\
    (forall n, get_bbbv_solved (g_bv g) = Ok (Some n) -> Z.of_nat n < 2 ^ 53 -> val y = 0%R /\ val z = 0%R).
Proof.
  intros powf now0 cs g Hpow H Ho. destruct (over_getters H Ho) as (G1 & G2 & G3 & G4 & G5 & G6 & _). pose proof (si_time (played_SI H)) as Ht.
  unfold get_ce_s, get_rqp, get_qg, get_power. rewrite G2, G3, Ht. cbn [bindo bind]. rewrite !Hpow.
  replace (f_lt f_zero f_00099) with true by (vm_compute; reflexivity).
  assert (Q : forall n, exists q, (if (n =? 0)%nat then Ok (Some f_zero) else Ok (Some (fdiv f_zero (f_of n)))) = Ok (Some q) /\ (Z.of_nat n < 2 ^ 53 -> val q = 0%R)).
  { intros n. destruct (Nat.eqb_spec n 0) as [|Hn]; eexists; (split; [reflexivity|]); [reflexivity|]. intros Hb.
    destruct (@quot_nearest 0 (Z.of_nat n)) as [_ [_ Q]]; [lia|lia|]. change f_zero with (f64_of_Z 0). unfold f_of. rewrite Q. unfold Rdiv. rewrite Rmult_0_l. apply round_0, valid_rnd_N. }
  destruct (Q (m_solved (b_mb (g_bv g)))) as (q & Eq & Vq). exists f_zero, q, q. split; [reflexivity|]. split; [reflexivity|]. split; [exact Eq|]. split; [exact Eq|].
  intros n En Hn. injection En as <-. auto.
Qed.
Print Assumptions C75_refuted.

(** The game of C74_case ends after 249 ms with 2 left clicks, 1 right click and no chord. *)
Definition read_speed (cs : list vcall) (k : counter) (now : Z) : option Z :=
  match run cs with Ok g => match get_speed g k now with Ok x => Some (bits_of_b64 x) | _ => None end | _ => None end.
Example C75_case :
  state_of (run (stat_session ++ stat_end)) = Some Win /\
  read_speed (stat_session ++ stat_end) Left 0 = Some (bits_of_b64 (fdiv (f_of 2) (ms_to_s 249))) /\
  read_speed (stat_session ++ stat_end) Cl 0 = Some (bits_of_b64 (fdiv (f_of 3) (ms_to_s 249))) /\
  read_speed (stat_session ++ stat_end) Double 0 = Some (bits_of_b64 f_zero) /\
  read_speed stat_session Cl 1150700 = Some (bits_of_b64 (fdiv (f64_of_Z 2000) (f64_of_Z 49))) /\
  read_speed stat_session Cl 1101300 = Some (bits_of_b64 (B754_infinity 53 1024 false)) /\
  read_speed stat_session Cl 1100800 = None.
Proof. repeat (split; [vm_compute; reflexivity|]). vm_compute. reflexivity. Qed.

(** ** C76: the ratios *)
(** effective clicks per click, solved 3BV per effective click, solved 3BV per click *)
Definition ratio (x : binary64) (a b : nat) : Prop :=
  (b <> 0%nat -> nearest x (INR a / INR b)) /\ (b = 0%nat -> is_finite 53 1024 x = true /\ val x = 0%R).
Lemma ratio_ok (a b : nat) : Z.of_nat a < 2 ^ 53 -> Z.of_nat b < 2 ^ 53 ->
  ratio (if (b =? 0)%nat then f_zero else fdiv (f_of a) (f_of b)) a b.
Proof.
  intros Ha Hb. split; intros Hn; destruct (Nat.eqb_spec b 0); try lia; [|split; reflexivity].
  rewrite !INR_IZR_INZ. apply quot_nearest; lia.
Qed.
(** After a game and during playback, whenever the three counters can be read. *)
Theorem C76_ratios : forall g ce n cl, get_ce (g_bv g) = Ok (Some ce) -> get_bbbv_solved (g_bv g) = Ok (Some n) -> get_counter (g_bv g) Cl = Ok cl ->
  Z.of_nat ce < 2 ^ 53 -> Z.of_nat n < 2 ^ 53 -> Z.of_nat cl < 2 ^ 53 ->
  exists corr thrp ioe, get_corr g = Ok (Some corr) /\ get_thrp g = Ok (Some thrp) /\ get_ioe g = Ok (Some ioe) /\
    ratio corr ce cl /\ ratio thrp n ce /\ ratio ioe n cl /\
    ((ce <= cl)%nat -> (val corr <= 1)%R) /\ ((n <= ce)%nat -> (val thrp <= 1)%R) /\
    (cl <> 0%nat -> ce <> 0%nat -> (Rabs (val corr * val thrp - INR n / INR cl) <= INR n / INR cl * bpow radix2 (-50))%R).
Proof.
  intros g ce n cl H1 H2 H3 B1 B2 B3. unfold get_corr, get_thrp, get_ioe. rewrite H1, H2, H3. cbn [bindo bind].
  exists (if (cl =? 0)%nat then f_zero else fdiv (f_of ce) (f_of cl)), (if (ce =? 0)%nat then f_zero else fdiv (f_of n) (f_of ce)),
    (if (cl =? 0)%nat then f_zero else fdiv (f_of n) (f_of cl)).
  split; [destruct (cl =? 0)%nat; reflexivity|]. split; [destruct (ce =? 0)%nat; reflexivity|]. split; [destruct (cl =? 0)%nat; reflexivity|].
  do 3 (split; [now apply ratio_ok|]).
  assert (Le : forall a b, Z.of_nat a < 2 ^ 53 -> Z.of_nat b < 2 ^ 53 -> (a <= b)%nat -> (val (if (b =? 0)%nat then f_zero else fdiv (f_of a) (f_of b)) <= 1)%R).
  { intros a b Ha Hb Hab. destruct (Nat.eqb_spec b 0); [change (val f_zero) with 0%R; lra|]. destruct (@quot_nearest (Z.of_nat a) (Z.of_nat b)) as [_ [_ V]]; [lia|lia|].
    unfold f_of. rewrite V. rewrite <- (@int_exact 1) by lia. apply round_le; [apply FLT_exp_valid; reflexivity|apply valid_rnd_N|].
    assert (0 < IZR (Z.of_nat b))%R by (apply IZR_lt; lia). apply Rmult_le_reg_r with (IZR (Z.of_nat b)); [lra|]. unfold Rdiv. rewrite Rmult_assoc, Rinv_l by lra.
    rewrite Rmult_1_r, Rmult_1_l. apply IZR_le. lia. }
  split; [intros; now apply Le|]. split; [intros; now apply Le|]. intros N1 N2.
  destruct (Nat.eqb_spec cl 0); [lia|]. destruct (Nat.eqb_spec ce 0); [lia|].
  destruct (@quot_nearest (Z.of_nat ce) (Z.of_nat cl)) as [[_ _ P1 L1 U1] _]; [lia|lia|]. destruct (@quot_nearest (Z.of_nat n) (Z.of_nat ce)) as [[_ _ P2 L2 U2] _]; [lia|lia|].
  unfold f_of. rewrite !INR_IZR_INZ. set (c := val (fdiv (f64_of_Z (Z.of_nat ce)) (f64_of_Z (Z.of_nat cl)))) in *. set (t := val (fdiv (f64_of_Z (Z.of_nat n)) (f64_of_Z (Z.of_nat ce)))) in *.
  assert (Pc : (0 < IZR (Z.of_nat cl))%R) by (apply IZR_lt; lia). assert (Pe : (0 < IZR (Z.of_nat ce))%R) by (apply IZR_lt; lia). assert (Pn : (0 <= IZR (Z.of_nat n))%R) by (apply IZR_le; lia).
  set (A := (IZR (Z.of_nat ce) / IZR (Z.of_nat cl))%R) in *. set (B := (IZR (Z.of_nat n) / IZR (Z.of_nat ce))%R) in *.
  assert (EA : (IZR (Z.of_nat n) / IZR (Z.of_nat cl) = A * B)%R) by (unfold A, B; field; lra). rewrite EA.
  assert (A0 : (0 <= A)%R) by (unfold A, Rdiv; apply Rmult_le_pos; [lra|left; now apply Rinv_0_lt_compat]).
  assert (B0 : (0 <= B)%R) by (unfold B, Rdiv; apply Rmult_le_pos; [lra|left; now apply Rinv_0_lt_compat]).
  destruct (@w_lin 2) as [W _]; [lia|]. replace (INR 2 * bpow radix2 (-51))%R with (bpow radix2 (-50)) in W by (change (INR 2) with 2%R; change 2%R with (bpow radix2 1); rewrite <- bpow_plus; reflexivity).
  pose proof w_gt as Wg. set (u := bpow radix2 (-50)) in *. assert (Hu : (0 < u)%R) by apply bpow_gt_0. cbn [pow] in *. rewrite Rmult_1_r in *.
  assert (X1 : (A * B <= c * t * (w * w))%R) by (replace (c * t * (w * w))%R with ((c * w) * (t * w))%R by ring; apply Rmult_le_compat; auto).
  assert (X2 : (c * t <= A * B * (w * w))%R) by (replace (A * B * (w * w))%R with ((A * w) * (B * w))%R by ring; apply Rmult_le_compat; auto).
  assert (X0 : (0 <= A * B)%R) by (apply Rmult_le_pos; auto). set (P := (A * B)%R) in *. set (Q := (c * t)%R) in *.
  assert (Q0 : (0 <= Q)%R) by (unfold Q; apply Rmult_le_pos; auto).
  apply Rabs_le. split; [|nra]. assert (P <= Q * (1 + u))%R by nra. assert (Q * u <= P * u \/ P <= Q)%R by (destruct (Rle_dec P Q); [right; auto|left; apply Rmult_le_compat_r; lra]). nra.
Qed.
Print Assumptions C76_ratios.
(** ... which is the case after every game; before the end they are refused. *)
Theorem C76_available : forall now0 cs g, played now0 cs g ->
  (over (gstate g) -> exists ce n cl, get_ce (g_bv g) = Ok (Some ce) /\ get_bbbv_solved (g_bv g) = Ok (Some n) /\ get_counter (g_bv g) Cl = Ok cl) /\
  (~ over (gstate g) -> get_corr g = Ok None /\ get_thrp g = Ok None /\ get_ioe g = Ok None /\ get_etime g = Ok None /\ get_bbbv_s g = Ok None /\ get_ce_s g = Ok None).
Proof.
  intros now0 cs g H. split.
  - intros Ho. destruct (over_getters H Ho) as (G1 & G2 & G3 & _). rewrite G2, G3, G1. eauto 10.
  - intros Ho. pose proof (si_disp (played_SI H)) as Hd. unfold gstate, over in *.
    unfold get_corr, get_thrp, get_ioe, get_etime, get_bbbv_s, get_ce_s, get_ce, get_bbbv_solved, get_final.
    destruct (b_state (g_bv g)); try (exfalso; tauto); cbn [bindo bind]; auto 10.
Qed.
Print Assumptions C76_available.
(** corr is not always at most 1: flagging and unflagging a mine before the game is an effective click that
    [cl] does not keep. Here the game is won with 1 click, corr is 2. *)
Definition read_stat (cs : list vcall) (f : game -> R (option binary64)) : option Z :=
  match run cs with Ok g => match f g with Ok (Some x) => Some (bits_of_b64 x) | _ => None end | _ => None end.
Theorem C76_refuted : state_of (run unflag_session) = Some Win /\ read_stat unflag_session get_corr = Some (bits_of_b64 (f_of 2)).
Proof. split; vm_compute; reflexivity. Qed.
Print Assumptions C76_refuted.
Example C76_case : state_of (run (stat_session ++ stat_end)) = Some Win /\
  read_stat (stat_session ++ stat_end) get_corr = Some (bits_of_b64 f_one) /\
  read_stat (stat_session ++ stat_end) get_thrp = Some (bits_of_b64 (fdiv (f_of 1) (f_of 3))) /\
  read_stat (stat_session ++ stat_end) get_ioe = Some (bits_of_b64 (fdiv (f_of 1) (f_of 3))).
Proof. repeat (split; [vm_compute; reflexivity|]). vm_compute. reflexivity. Qed.

(** ** C77: the estimated time and STNB *)
(** After a game: the result time times 3BV over the solved 3BV (three roundings), 0 if nothing is solved. For
    a game with everything solved it is the result time. *)
Theorem C77_etime : forall now0 cs g, played now0 cs g -> over (gstate g) ->
  exists ms n bv x, get_rtime_ms (g_bv g) = Some ms /\ get_bbbv_solved (g_bv g) = Ok (Some n) /\ cal_bbbv (v_board (b_meta (g_bv g))) = Ok bv /\
    get_etime g = Ok (Some x) /\ (n = 0%nat -> val x = 0%R) /\
    (n <> 0%nat -> Z.of_nat n < 2 ^ 53 -> Z.of_nat bv < 2 ^ 53 ->
       about 3 x (IZR ms / 1000 * INR bv / INR n) /\ (n = bv -> about 3 x (IZR ms / 1000))).
Proof.
  intros now0 cs g H Ho. destruct (over_getters H Ho) as (G1 & G2 & G3 & G4 & G5 & G6 & m & Em & Eb).
  exists (v_rtime_ms (b_meta (g_bv g))), (m_solved (b_mb (g_bv g))), m. unfold get_etime. rewrite G3, Eb. cbn [bindo bind].
  replace (match b_state (g_bv g) with Display => g_time g | _ => rtime (g_bv g) end) with (rtime (g_bv g)) by (unfold gstate in Ho; destruct Ho as [-> | ->]; reflexivity).
  set (n := m_solved (b_mb (g_bv g))). set (ms := v_rtime_ms (b_meta (g_bv g))) in *.
  exists (if (n =? 0)%nat then f_zero else fmul (fdiv (rtime (g_bv g)) (f_of n)) (f64_of_Z (Z.of_nat m))).
  split; [exact G5|]. split; [reflexivity|]. split; [exact Em|]. split; [destruct (n =? 0)%nat; reflexivity|].
  destruct (Nat.eqb_spec n 0) as [En|Hn]; [split; [reflexivity|lia]|]. split; [lia|]. intros _ Bn Bm.
  assert (A : about 3 (fmul (fdiv (rtime (g_bv g)) (f_of n)) (f64_of_Z (Z.of_nat m))) (IZR ms / 1000 * INR m / INR n)).
  { apply near_about; [lia|]. destruct (@ms_near ms ltac:(lia)) as [N1 _]. destruct (@exact_near (Z.of_nat n) ltac:(lia)) as [N2 _]. destruct (@exact_near (Z.of_nat m) ltac:(lia)) as [N3 _].
    assert (Pn : (0 < IZR (Z.of_nat n))%R) by (apply IZR_lt; lia).
    destruct (quot_near N1 N2) as [N4 _]; [exact Pn| |apply w1|].
    { replace (IZR ms / 1000 / IZR (Z.of_nat n))%R with (IZR ms / IZR (1000 * Z.of_nat n))%R by (rewrite mult_IZR; field; lra). apply sized_quot; lia. }
    destruct (mult_near N4 N3) as [N _]; [|apply w1|].
    { replace (IZR ms / 1000 / IZR (Z.of_nat n) * IZR (Z.of_nat m))%R with (IZR (ms * Z.of_nat m) / IZR (1000 * Z.of_nat n))%R by (rewrite !mult_IZR; field; lra). apply sized_quot; nia. }
    replace (IZR ms / 1000 * INR m / INR n)%R with (IZR ms / 1000 / IZR (Z.of_nat n) * IZR (Z.of_nat m))%R; [exact N|]. rewrite !INR_IZR_INZ. field. lra. }
  split; [exact A|]. intros E. rewrite <- E in A at 2. replace (IZR ms / 1000 * INR n / INR n)%R with (IZR ms / 1000)%R in A; [exact A|]. field. apply not_0_INR. lia.
Qed.
Print Assumptions C77_etime.
(** STNB is 0 on every board that is not of one of the three standard sizes; on those it has the constant of the
    level ([powf]: the platform's power function). *)
Theorem C77_stnb : forall powf now0 cs g, played now0 cs g -> over (gstate g) ->
  let f := b_meta (g_bv g) in
  exists n x, get_bbbv_solved (g_bv g) = Ok (Some n) /\ get_stnb powf g = Ok (Some x) /\
    (~ In (v_height f, v_width f, v_mine_num f) [((8, 8)%nat, 10); ((16, 16)%nat, 40); ((16, 30)%nat, 99)] -> val x = 0%R) /\
    (forall c, In (v_height f, v_width f, v_mine_num f, c) [((8, 8)%nat, 10, 47299); ((16, 16)%nat, 40, 153730); ((16, 30)%nat, 99, 435001)] ->
       exists k, nearest k (IZR c / 1000) /\
         x = fmul (fdiv (fmul k (f64_of_Z (v_bbbv f))) (powf (rtime (g_bv g)) f_17)) (powf (fdiv (f_of n) (f64_of_Z (v_bbbv f))) f_half)).
Proof.
  intros powf now0 cs g H Ho f. destruct (over_getters H Ho) as (_ & _ & G3 & _). unfold get_stnb. rewrite G3. cbn [bindo bind].
  replace (is_state (b_state (g_bv g)) Display) with false by (unfold gstate in Ho; destruct Ho as [-> | ->]; reflexivity). cbn [andb].
  replace (match b_state (g_bv g) with Display => g_time g | _ => rtime (g_bv g) end) with (rtime (g_bv g)) by (unfold gstate in Ho; destruct Ho as [-> | ->]; reflexivity).
  fold f. set (n := m_solved (b_mb (g_bv g))). exists n.
  exists (match level_const (v_height f) (v_width f) (v_mine_num f) with None => f_zero
          | Some c => fmul (fdiv (fmul c (f64_of_Z (v_bbbv f))) (powf (rtime (g_bv g)) f_17)) (powf (fdiv (f_of n) (f64_of_Z (v_bbbv f))) f_half) end).
  split; [reflexivity|]. split; [destruct (level_const _ _ _); reflexivity|]. unfold level_const. split.
  - intros Hn. destruct (Nat.eqb_spec (v_height f) 8), (Nat.eqb_spec (v_width f) 8), (Z.eqb_spec (v_mine_num f) 10); cbn [andb];
      try (exfalso; apply Hn; left; congruence);
      destruct (Nat.eqb_spec (v_height f) 16), (Nat.eqb_spec (v_width f) 16), (Z.eqb_spec (v_mine_num f) 40); cbn [andb];
      try (exfalso; apply Hn; right; left; congruence);
      destruct (Nat.eqb_spec (v_width f) 30), (Z.eqb_spec (v_mine_num f) 99); cbn [andb];
      try (exfalso; apply Hn; right; right; left; congruence); reflexivity.
  - intros c [E|[E|[E|[]]]]; injection E as E1 E2 E3 <-; rewrite <- E1, <- E2, <- E3; cbn [Nat.eqb Z.eqb Pos.eqb andb]; (eexists; split; [|reflexivity]).
    + apply (@quot_nearest 47299 1000); lia.
    + replace (153730 / 1000)%R with (15373 / 100)%R by lra. apply (@quot_nearest 15373 100); lia.
    + apply (@quot_nearest 435001 1000); lia.
Qed.
Print Assumptions C77_stnb.
Example C77_case : state_of (run (stat_session ++ stat_end)) = Some Win /\
  read_stat (stat_session ++ stat_end) get_etime = Some (bits_of_b64 (ms_to_s 249)) /\
  level_const 16 30 99 = Some (fdiv (f64_of_Z 435001) (f64_of_Z 1000)).
Proof. repeat (split; [vm_compute; reflexivity|]). reflexivity. Qed.
