(** * PropsOld: avf, rmv and mvf files (C50, C66).

    OldSpec.v says what the files look like: [avf_file rt bs a], [rmv_file bs a] and [mvf_file magic bs a]
    hold when the bytes [bs] are a complete file with the contents [a]. [avf_result v a] etc.: the parsed
    object [v] has these contents, among them the board with exactly the listed mines and the right numbers.
    A parser may leave bytes at the end of the data unread. *)
From Verif Require Import Base Spec BaseFacts LayMine LayMineProofs MineBoard Evf EvfSpec EvfProofs EvfSafe OldVideos OldSpec OldLib OldAvf OldAvfMain OldSafe OldAvfSafe OldRmv OldRmvMain OldMvfKey OldMvf OldMvfWrite.
Open Scope Z_scope.
#[local] Opaque key_order.

Lemma exact_raw {A} (p : P A) L raw v : exact p L -> bytes raw -> (fst (p raw 0%nat) = Ok v <-> exists file rest, raw = file ++ rest /\ L file v).
Proof.
  intros H Hb. split.
  - intros E. destruct (p raw 0%nat) as [r o'] eqn:Ep. cbn [fst] in E. subst r. apply (H raw 0%nat v o' Hb) in Ep as (bs & Hs & _ & HL). apply seg_file in Hs as [rest ->]. eauto.
  - intros (file & rest & -> & HL). enough (p (file ++ rest) 0%nat = (Ok v, (0 + length file)%nat)) as -> by reflexivity. apply H; auto. exists file. split; [apply seg_file; eauto|auto].
Qed.
Lemma exact_end {A} (p : P A) L file rest v : exact p L -> bytes (file ++ rest) -> L file v -> p (file ++ rest) 0%nat = (Ok v, length file).
Proof. intros H Hb HL. apply (H (file ++ rest) 0%nat v (length file) Hb). exists file. split; [apply seg_file; eauto|auto]. Qed.
Lemma crash_raw {A} (p : P A) C raw : crash p C -> bytes raw -> fst (p raw 0%nat) <> OutOfFuel /\ (fst (p raw 0%nat) = Panic <-> exists bad rest, raw = bad ++ rest /\ C bad).
Proof.
  intros H Hb. destruct (H raw 0%nat Hb) as [H1 H2]. split; auto. rewrite H2. split; [intros (bs & Hs & HC); apply seg_file in Hs as [rest ->]; eauto|intros (bad & rest & E & HC); exists bad; split; auto; apply seg_file; eauto].
Qed.
Lemma cut_raw {A} (p : P A) L file rest v n : exact p L -> det p -> bytes (file ++ rest) -> L file v -> (n < length file)%nat -> exists e, fst (p (firstn n file) 0%nat) = Err e.
Proof.
  intros H D Hb HL Hn. apply bytes_app_iff in Hb as [Hb _]. pose proof (@exact_end A p L file [] v H) as E. rewrite app_nil_r in E. eapply cut_short; eauto.
Qed.

(** ** AVF *)
(** Accepted: exactly the files of the format, with their contents. *)
Theorem C50_avf_exact : forall rtime_of raw v, bytes raw ->
  (fst (parse_avf rtime_of raw 0%nat) = Ok v <-> exists file rest, raw = file ++ rest /\ exists a, avf_file rtime_of file a /\ avf_result v a).
Proof. intros rt raw v Hb. apply (exact_raw v (avf_exact rt) Hb). Qed.
Print Assumptions C50_avf_exact.

(** A well formed file whose mines lie on the board is read, and the board has its mines exactly there. *)
Theorem C50_avf_board : forall rtime_of file a rest, bytes (file ++ rest) -> avf_file rtime_of file a ->
  Forall (fun p => (fst p < a_height a /\ snd p < a_width a)%nat) (a_mines a) ->
  exists v, parse_avf rtime_of (file ++ rest) 0%nat = (Ok v, length file) /\ legal_board (a_height a) (a_width a) (o_board v) /\
    (forall p, inb (a_height a) (a_width a) p -> (is_mine (o_board v) p = true <-> In p (a_mines a))) /\ o_events v = a_events a.
Proof.
  intros rt file a rest Hb Hf Hm. assert (H1 : (1 <= a_height a)%nat).
  { destruct Hf as (head & dims & um & uB & bb & tt & ue & b0 & b1 & five & recs & la & skin & _ & _ & Hs & _). destruct Hs as [(_ & _ & -> & _)|[(_ & _ & -> & _)|[(_ & _ & -> & _)|(_ & w & h & m1 & m2 & _ & -> & _)]]]; lia. }
  destruct (@board_exists (a_height a) (a_width a) (a_mines a) H1) as [b HB]; [exact Hm|].
  exists (OldV [65; 114; 98; 105; 116; 101; 114] (a_level a) (a_width a) (a_height a) (a_count a) 0 false (a_bbbv a) (a_rtime a) (a_start a) (a_end a) (a_player a) [] b (a_events a)).
  split; [|cbn [o_board o_events]; split; [apply HB|split; [apply HB|reflexivity]]]. apply (@exact_end _ _ _ _ rest _ (avf_exact rt) Hb). exists a. split; [exact Hf|]. unfold avf_result. cbn. auto 20.
Qed.
Print Assumptions C50_avf_board.

(** A file cut short is an error. *)
Theorem C50_avf_truncated : forall rtime_of file a v n, bytes file -> avf_file rtime_of file a -> avf_result v a -> (n < length file)%nat ->
  exists e, fst (parse_avf rtime_of (firstn n file) 0%nat) = Err e.
Proof. intros rt file a v n Hb Hf Hv Hn. eapply (@cut_raw _ _ _ file [] v n (avf_exact rt) (avf_det rt)); [now rewrite app_nil_r|eauto|exact Hn]. Qed.
Print Assumptions C50_avf_truncated.

(** The parser always ends. It panics exactly when a listed mine is not on the board. *)
Theorem C50_avf_panics : forall rtime_of raw, bytes raw ->
  fst (parse_avf rtime_of raw 0%nat) <> OutOfFuel /\ (fst (parse_avf rtime_of raw 0%nat) = Panic <-> exists bad rest, raw = bad ++ rest /\ avf_bad_mine bad).
Proof. intros rt raw Hb. apply (crash_raw (avf_crash rt) Hb). Qed.
Print Assumptions C50_avf_panics.

(** ** RMV *)
Theorem C50_rmv_exact : forall raw v, bytes raw ->
  (fst (parse_rmv raw 0%nat) = Ok v <-> exists file rest, raw = file ++ rest /\ exists a, rmv_file file a /\ rmv_result v a).
Proof. intros raw v Hb. apply (exact_raw v rmv_exact Hb). Qed.
Print Assumptions C50_rmv_exact.

Theorem C50_rmv_board : forall file a rest, bytes (file ++ rest) -> rmv_file file a ->
  Forall (fun p => (fst p < r_height a /\ snd p < r_width a)%nat) (r_mines a) ->
  exists v, parse_rmv (file ++ rest) 0%nat = (Ok v, length file) /\ legal_board (r_height a) (r_width a) (o_board v) /\
    (forall p, inb (r_height a) (r_width a) p -> (is_mine (o_board v) p = true <-> In p (r_mines a))) /\ o_events v = r_events a.
Proof.
  intros file a rest Hb Hf Hm. assert (H1 : (1 <= r_height a)%nat).
  { destruct Hf as (? & ? & ? & ? & ? & ? & ? & ? & ? & ? & ? & ? & ? & ? & ? & ? & _ & _ & _ & _ & _ & _ & H & _). exact H. }
  destruct (@board_exists (r_height a) (r_width a) (r_mines a) H1) as [b HB]; [exact Hm|].
  exists (OldV [86; 105; 101; 110; 110; 97; 115; 119; 101; 101; 112; 101; 114] (r_level a) (r_width a) (r_height a) (Z.of_nat (length (r_mines a))) (r_mode a) (r_nf a) (r_bbbv a) (r_rtime a) (r_start a) [] (r_player a) (r_country a) b (r_events a)).
  split; [|cbn [o_board o_events]; split; [apply HB|split; [apply HB|reflexivity]]]. apply (@exact_end _ _ _ _ rest _ rmv_exact Hb). exists a. split; [exact Hf|]. unfold rmv_result. cbn. auto 20.
Qed.
Print Assumptions C50_rmv_board.

Theorem C50_rmv_truncated : forall file a v n, bytes file -> rmv_file file a -> rmv_result v a -> (n < length file)%nat ->
  exists e, fst (parse_rmv (firstn n file) 0%nat) = Err e.
Proof. intros file a v n Hb Hf Hv Hn. eapply (@cut_raw _ _ _ file [] v n rmv_exact rmv_det); [now rewrite app_nil_r|eauto|exact Hn]. Qed.
Print Assumptions C50_rmv_truncated.

(** The parser always ends. It panics exactly on the files of [rmv_crash]: a result string of less than
    three characters, a board without rows, a level of 253 or more, less than four bytes of properties, or
    no event at all. *)
Theorem C50_rmv_panics : forall raw, bytes raw ->
  fst (parse_rmv raw 0%nat) <> OutOfFuel /\ (fst (parse_rmv raw 0%nat) = Panic <-> exists bad rest, raw = bad ++ rest /\ rmv_crash bad).
Proof. intros raw Hb. apply (crash_raw rmv_crashes Hb). Qed.
Print Assumptions C50_rmv_panics.

(** ** MVF *)
(** [numbers]: the five numbers that the code computes from the key of the file with square roots, sines
    and cosines, rounded after multiplication by 10^8: nothing is assumed about them but that they lie
    between 0 and 10^8. Files of another version than 0.97 are accepted without being read. *)
Theorem C50_mvf_exact : forall numbers raw v, (forall l, five_numbers (numbers l)) -> bytes raw ->
  (fst (parse_mvf numbers raw 0%nat) = Ok v <-> exists file rest, raw = file ++ rest /\ ((exists a, mvf_file numbers file a /\ mvf_result v a) \/ mvf_other file /\ v = empty_oldv)).
Proof. intros nu raw v M Hb. apply (exact_raw v (mvf_exact M) Hb). Qed.
Print Assumptions C50_mvf_exact.

Theorem C50_mvf_board : forall numbers file a rest, (forall l, five_numbers (numbers l)) -> bytes (file ++ rest) -> mvf_file numbers file a ->
  Forall (fun p => (fst p < f_height a /\ snd p < f_width a)%nat) (f_mines a) ->
  exists v, parse_mvf numbers (file ++ rest) 0%nat = (Ok v, length file) /\ legal_board (f_height a) (f_width a) (o_board v) /\
    (forall p, inb (f_height a) (f_width a) p -> (is_mine (o_board v) p = true <-> In p (f_mines a))) /\ o_events v = mvf_events (f_records a).
Proof.
  intros nu file a rest M Hb Hf Hm. assert (H1 : (1 <= f_height a)%nat).
  { destruct Hf as (? & ? & ? & ? & ? & ? & ? & ? & ? & ? & _ & _ & _ & _ & _ & _ & _ & _ & _ & _ & H & _). exact H. }
  destruct (@board_exists (f_height a) (f_width a) (f_mines a) H1) as [b HB]; [exact Hm|].
  exists (OldV [48; 46; 57; 55; 32; 98; 101; 116; 97] (f_level a) (f_width a) (f_height a) (Z.of_nat (length (f_mines a))) (f_mode a) false (f_bbbv a) (f_rtime a) [] [] (f_player a) [] b (mvf_events (f_records a))).
  split; [|cbn [o_board o_events]; split; [apply HB|split; [apply HB|reflexivity]]]. apply (@exact_end _ _ _ _ rest _ (mvf_exact M) Hb). left. exists a. split; [exact Hf|]. unfold mvf_result. cbn [o_software o_level o_width o_height o_mines o_mode o_nf o_bbbv o_rtime_ms o_start o_end o_player o_country o_board o_events]. auto 20.
Qed.
Print Assumptions C50_mvf_board.

Theorem C50_mvf_truncated : forall numbers file a v n, (forall l, five_numbers (numbers l)) -> bytes file -> mvf_file numbers file a -> mvf_result v a -> (n < length file)%nat ->
  exists e, fst (parse_mvf numbers (firstn n file) 0%nat) = Err e.
Proof. intros nu file a v n M Hb Hf Hv Hn. eapply (@cut_raw _ _ _ file [] v n (mvf_exact M) (mvf_det nu)); [now rewrite app_nil_r|eauto|exact Hn]. Qed.
Print Assumptions C50_mvf_truncated.

Theorem C50_mvf_panics : forall numbers raw, (forall l, five_numbers (numbers l)) -> bytes raw ->
  fst (parse_mvf numbers raw 0%nat) <> OutOfFuel /\ (fst (parse_mvf numbers raw 0%nat) = Panic <-> exists bad rest, raw = bad ++ rest /\ mvf_crash bad).
Proof. intros nu raw M Hb. apply (crash_raw (mvf_crashes M) Hb). Qed.
Print Assumptions C50_mvf_panics.

(** ** Every contents can be written *)
(** what an mvf file can say *)
Definition mvf_writable (a : mvf_contents) : Prop :=
  2 <= f_level a <= 255 /\ 0 <= f_mode a <= 3 /\ (1 <= f_height a <= 255)%nat /\ (f_width a <= 255)%nat /\
  Forall (inb (f_height a) (f_width a)) (f_mines a) /\ Z.of_nat (length (f_mines a)) < 65536 /\ 0 <= f_bbbv a < 65536 /\
  (exists sec hs, 0 <= sec < 65536 /\ 0 <= hs < 256 /\ f_rtime a = sec * 1000 + hs * 10) /\
  bytes (f_player a) /\ Z.of_nat (length (f_player a)) < 256 /\
  f_records a <> [] /\ Z.of_nat (length (f_records a)) < 16777216 /\
  Forall (fun m => 0 <= m_x m < 512 /\ 0 <= m_y m < 512 /\ 0 <= m_hs m < 128 /\ 0 <= m_sec m < 1024) (f_records a).

Lemma bytes_be16 x : u16 x -> bytes (be16 x).
Proof. unfold u16, be16, bytes, byte. intros H. constructor; [split; [apply Z.div_pos; lia|apply Z.div_lt_upper_bound; lia]|]. constructor; [apply Z.mod_pos_bound; lia|constructor]. Qed.
Lemma bytes_be24 x : u24 x -> bytes (be24 x).
Proof. unfold u24, be24, bytes, byte. intros H. constructor; [split; [apply Z.div_pos; lia|apply Z.div_lt_upper_bound; lia]|]. constructor; [apply Z.mod_pos_bound; lia|]. constructor; [apply Z.mod_pos_bound; lia|constructor]. Qed.
Lemma write_all key l : is_key key -> Forall in_range l -> exists recs, bytes (concat recs) /\ Forall (fun r => length r = 5%nat) recs /\ map (mvf_decode key) recs = l.
Proof.
  intros K. induction 1 as [|m l Hm Hl (recs & Hb & HF & E)]; [exists []; split; [constructor|auto]|]. destruct (write_record K false false Hm) as (r & Hr & L & D & _). exists (r :: recs). cbn [concat map]. split; [apply bytes_app_iff; auto|]. split; [constructor; auto|congruence].
Qed.
(** Under every key, every contents within the limits of the format can be written, and what is written is
    read back. *)
Theorem C66_mvf_write_read : forall numbers leading a, (forall l, five_numbers (numbers l)) -> 0 <= leading < 65536 -> mvf_writable a ->
  exists file, bytes file /\ mvf_file numbers file a /\ forall rest, bytes rest -> exists v, parse_mvf numbers (file ++ rest) 0%nat = (Ok v, length file) /\ mvf_result v a.
Proof.
  intros nu leading a M Hle (Hlev & Hmo & Hh & Hw & Hmines & Hlen & H3 & (sec & hs & Hsec & Hhs & Hrt) & Hpl & Hpl2 & Hne & Hn & Hrec).
  destruct (@write_all (mvf_key (nu leading)) (f_records a) (mvf_key_ok (M leading)) Hrec) as (recs & Hb & HF & E).
  assert (EL : length recs = length (f_records a)) by (rewrite <- E, map_length; reflexivity).
  set (file := ([17; 77] ++ repeat 0 25 ++ [53] ++ repeat 0 46) ++ repeat 0 7 ++ [f_level a - 2; if f_mode a =? 0 then 1 else if f_mode a =? 3 then 2 else if f_mode a =? 1 then 3 else 4] ++ be16 sec ++ [hs] ++ be16 (f_bbbv a) ++ repeat 0 9 ++ [Z.of_nat (f_width a); Z.of_nat (f_height a)] ++ be16 (Z.of_nat (length (f_mines a))) ++
           mvf_mines (f_mines a) ++ counted (f_player a) ++ be16 leading ++ be24 (Z.of_nat (length recs)) ++ concat recs).
  assert (Hf : mvf_file nu file a).
  { exists ([17; 77] ++ repeat 0 25 ++ [53] ++ repeat 0 46), (repeat 0 7), (f_level a - 2), (if f_mode a =? 0 then 1 else if f_mode a =? 3 then 2 else if f_mode a =? 1 then 3 else 4), sec, hs, (repeat 0 9), (Z.of_nat (length (f_mines a))), leading, recs.
    split; [reflexivity|]. split; [exists (repeat 0 25), (repeat 0 46); auto|]. split; [reflexivity|]. split; [lia|]. split; [lia|]. split.
    { assert (C : f_mode a = 0 \/ f_mode a = 1 \/ f_mode a = 2 \/ f_mode a = 3) by lia. destruct C as [C|[C|[C|C]]]; rewrite C; reflexivity. }
    unfold u16, u24. split; [lia|]. split; [exact Hrt|]. split; [lia|]. split; [reflexivity|]. split; [lia|]. split; [lia|]. split; [lia|]. split; [lia|]. split; [lia|]. split; [intros ->; apply Hne; destruct (f_records a); [reflexivity|discriminate EL]|]. split; [exact HF|]. now symmetry. }
  assert (Hfb : bytes file).
  { assert (R : forall n, bytes (repeat 0 n)) by (intros n; apply Forall_forall; intros x Hx; apply repeat_spec in Hx; subst; unfold byte; lia). unfold file, counted.
    repeat rewrite ?bytes_app_iff, ?bytes_cons_iff. assert (N : bytes []) by constructor. unfold byte.
    split; [split; [split; [lia|split; [lia|exact N]]|split; [apply R|split; [split; [lia|exact N]|apply R]]]|]. split; [apply R|]. split; [split; [lia|split; [destruct (f_mode a =? 0), (f_mode a =? 3), (f_mode a =? 1); lia|exact N]]|].
    split; [apply bytes_be16; unfold u16; lia|]. split; [split; [lia|exact N]|]. split; [apply bytes_be16; unfold u16; lia|]. split; [apply R|]. split; [split; [lia|split; [lia|exact N]]|]. split; [apply bytes_be16; unfold u16; lia|]. split.
    { unfold mvf_mines. apply Forall_forall. intros x Hx. apply in_flat_map in Hx as (p & Hp & Hx). rewrite Forall_forall in Hmines. specialize (Hmines p Hp). unfold inb in Hmines. unfold byte. cbn [In] in Hx. lia. }
    split; [split; [lia|exact Hpl]|]. split; [apply bytes_be16; unfold u16; lia|]. split; [apply bytes_be24; unfold u24; lia|exact Hb]. }
  exists file. split; [exact Hfb|]. split; [exact Hf|]. intros rest Hrest. assert (Hfr : bytes (file ++ rest)) by (apply bytes_app_iff; auto).
  destruct (@board_exists (f_height a) (f_width a) (f_mines a)) as [b HB]; [lia|exact Hmines|].
  exists (OldV [48; 46; 57; 55; 32; 98; 101; 116; 97] (f_level a) (f_width a) (f_height a) (Z.of_nat (length (f_mines a))) (f_mode a) false (f_bbbv a) (f_rtime a) [] [] (f_player a) [] b (mvf_events (f_records a))).
  assert (HR : mvf_result (OldV [48; 46; 57; 55; 32; 98; 101; 116; 97] (f_level a) (f_width a) (f_height a) (Z.of_nat (length (f_mines a))) (f_mode a) false (f_bbbv a) (f_rtime a) [] [] (f_player a) [] b (mvf_events (f_records a))) a).
  { unfold mvf_result. cbn [o_software o_level o_width o_height o_mines o_mode o_nf o_bbbv o_rtime_ms o_start o_end o_player o_country o_board o_events]. auto 20. }
  split; [|exact HR]. apply (@exact_end _ _ _ _ rest _ (mvf_exact M) Hfr). left. exists a. auto.
Qed.
Print Assumptions C66_mvf_write_read.

(** The coding of a record: under every key, for every state of the buttons, place and time within the
    limits and every choice of the two bits that are not used there is exactly one string of five bytes.
    And nothing beyond the limits can be said. *)
Theorem C66_record_coding : forall key m u v, is_key key ->
  0 <= m_x m < 512 /\ 0 <= m_y m < 512 /\ 0 <= m_hs m < 128 /\ 0 <= m_sec m < 1024 ->
  exists! r, bytes r /\ length r = 5%nat /\ mvf_decode key r = m /\ mvf_bit key r 38 = u /\ mvf_bit key r 39 = v.
Proof.
  intros key m u v K Hm. destruct (write_record K u v Hm) as (r & Hb & L & D & Eu & Ev). exists r. split; [auto|]. intros r' (Hb' & L' & D' & Eu' & Ev'). apply (decode_inj K); auto; congruence.
Qed.
Print Assumptions C66_record_coding.
Theorem C66_record_limits : forall key r, is_key key ->
  let m := mvf_decode key r in 0 <= m_x m < 512 /\ 0 <= m_y m < 512 /\ 0 <= m_hs m < 128 /\ 0 <= m_sec m < 1024.
Proof. intros key r K. apply (decode_range key r). Qed.
Print Assumptions C66_record_limits.

(** ** Concrete files *)
Lemma whole_file {A} (p : P A) L raw v : exact p L -> bytes raw -> p raw 0%nat = (Ok v, length raw) -> L raw v.
Proof. intros H Hb E. apply (H raw 0%nat v (length raw) Hb) in E as (bs & Hs & El & HL). apply seg_file in Hs as [rest ->]. rewrite app_length in El. cbn in El. destruct rest; [|cbn in El; lia]. now rewrite app_nil_r. Qed.
Definition isbyte (x : Z) : bool := (0 <=? x) && (x <? 256).
Lemma bytes_check l : forallb isbyte l = true -> bytes l.
Proof. intros H. apply Forall_forall. intros x Hx. apply (proj1 (forallb_forall _ _) H) in Hx. unfold isbyte in Hx. unfold byte. lia. Qed.

(** avf: a custom board with 2 rows and 3 columns, one mine in row 1 and column 2 (counted from 1), one move and one left press *)
Definition avf_demo : list Z :=
  [0; 0; 0; 0; 0; 6; 2; 1; 0; 1; 1; 2; 91; 48; 124; 115; 124; 101; 124; 124; 66; 53; 84; 49; 50; 44; 53; 93;
   5; 1; 0; 1; 7; 25; 0; 0; 9;  3; 1; 2; 7; 30; 0; 0; 9;  0; 0; 0; 0; 0; 0; 0; 0;  83; 107; 105; 110; 58; 13; 80; 81; 13].
Definition avf_demo_time (l : list Z) : option Z := match l with [49; 50; 46; 53] => Some 11500 | _ => None end.
Definition avf_demo_video : oldv := OldV [65; 114; 98; 105; 116; 101; 114] 6 3 2 1 0 false 5 11500 [115] [101] [80; 81] [] [[1; -1; 1]; [1; 1; 1]] [VEv e_mv 250 7 9; VEv e_lc 1300 263 9].
Example C50_avf_case : (exists a, avf_file avf_demo_time avf_demo a /\ avf_result avf_demo_video a) /\ fst (parse_avf avf_demo_time (firstn 61 avf_demo) 0%nat) = Err FileIsTooShort.
Proof.
  split; [|vm_compute; reflexivity]. apply (@whole_file _ _ _ avf_demo avf_demo_video (avf_exact avf_demo_time)); [apply bytes_check; vm_compute; reflexivity|]. vm_compute. reflexivity.
Qed.
(** The property fails for files that are not well formed: a listed mine outside of the board is a panic, not an error. *)
Theorem C50_avf_error_refuted : exists raw, bytes raw /\ forall rtime_of, fst (parse_avf rtime_of raw 0%nat) = Panic.
Proof. exists [0; 0; 0; 0; 0; 6; 0; 0; 0; 1; 1; 2]. split; [apply bytes_check; reflexivity|]. intros rt. reflexivity. Qed.
Print Assumptions C50_avf_error_refuted.

(** rmv: 2 rows, 3 columns, a mine in row 0, column 2 (counted from 0), a flag written with the same two
    bytes as the mine, one left release. *)
Definition rmv_demo : list Z :=
  [42; 114; 109; 118; 0; 1; 0; 0; 0; 0; 0; 5; 0; 1; 0; 0; 0; 0; 0; 4; 0; 6] ++ repeat 0 7 ++ [1; 2] ++ repeat 0 3 ++ [0; 1; 2; 80; 81] ++
  repeat 0 4 ++ [3; 2; 0; 1; 2; 0] ++ [0; 1; 2; 0] ++ [0; 1; 1; 0] ++ [0; 0] ++ [3; 0; 3; 232; 0; 0; 20; 0; 70] ++ [15].
Definition rmv_demo_video : oldv := OldV [86; 105; 101; 110; 110; 97; 115; 119; 101; 101; 112; 101; 114] 3 3 2 1 1 true 0 1000 [] [] [80; 81] [] [[0; 1; -1]; [0; 1; 1]] [VEv e_pf 0 0 32; VEv e_lc 1000 8 14; VEv e_lr 1000 8 14].
Example C50_rmv_case : exists a, rmv_file rmv_demo a /\ rmv_result rmv_demo_video a.
Proof. apply (@whole_file _ _ _ rmv_demo rmv_demo_video rmv_exact); [apply bytes_check; vm_compute; reflexivity|]. vm_compute. reflexivity. Qed.
(** The flag set before the game on the mine's own square comes out as a flag on the mirrored place (x is
    the row and y the column). *)
Theorem C50_rmv_flag_place_refuted : exists raw v, bytes raw /\ fst (parse_rmv raw 0%nat) = Ok v /\
  is_mine (o_board v) (0, 2)%nat = true /\ (exists pre post, raw = pre ++ [2; 0] ++ [0; 1; 2; 0] ++ post) /\ In (VEv e_pf 0 0 32) (o_events v) /\ ~ In (VEv e_pf 0 32 0) (o_events v).
Proof.
  exists rmv_demo, rmv_demo_video. split; [apply bytes_check; vm_compute; reflexivity|]. split; [vm_compute; reflexivity|]. split; [reflexivity|]. split; [exists (firstn 47 rmv_demo), (skipn 53 rmv_demo); vm_compute; reflexivity|]. cbn [rmv_demo_video o_events In]. split; [auto|]. intros [X|[X|[X|[]]]]; discriminate X.
Qed.
Print Assumptions C50_rmv_flag_place_refuted.
(** no event at all: a panic *)
Theorem C50_rmv_error_refuted : exists raw, bytes raw /\ fst (parse_rmv raw 0%nat) = Panic.
Proof.
  exists ([42; 114; 109; 118; 0; 1; 0; 0; 0; 0; 0; 5; 0; 1; 0; 0; 0; 0; 0; 0; 0; 6] ++ repeat 0 7 ++ [1; 2] ++ repeat 0 3 ++ [0; 0] ++ repeat 0 4 ++ [3; 2; 0; 1; 2; 0] ++ [0; 1; 1; 0] ++ [0; 0] ++ [15]).
  split; [apply bytes_check; vm_compute; reflexivity|]. vm_compute. reflexivity.
Qed.
Print Assumptions C50_rmv_error_refuted.

(** mvf *)
Definition demo_numbers (_ : Z) : list Z := [12345678; 9876; 0; 100000000; 13579246].
Lemma demo_five l : five_numbers (demo_numbers l).
Proof. split; [reflexivity|]. unfold demo_numbers. repeat (constructor; [lia|]). constructor. Qed.
Definition mvf_demo : mvf_contents := Mvf 3 1 2 3 [(0, 2)%nat] 5 12340 [80; 81] [MRec false false true 20 300 50 0; MRec false false false 21 300 60 1000].
Example C66_case : mvf_writable mvf_demo /\ mvf_events (f_records mvf_demo) = [VEv e_lc 500 300 20; VEv e_mv 1000600 300 21; VEv e_lr 1000600 300 21].
Proof.
  split; [|vm_compute; reflexivity]. unfold mvf_writable, mvf_demo. cbn [f_level f_mode f_height f_width f_mines f_bbbv f_rtime f_player f_records].
  split; [lia|]. split; [lia|]. split; [lia|]. split; [lia|]. split; [constructor; [unfold inb; cbn; lia|constructor]|]. split; [cbn; lia|]. split; [lia|]. split; [exists 12, 34; lia|]. split; [apply bytes_check; reflexivity|]. split; [cbn; lia|].
  split; [discriminate|]. split; [cbn; lia|]. constructor; [cbn; lia|constructor; [cbn; lia|constructor]].
Qed.
(** The property fails for other files: any data that does not start with the mark of a version is
    "read" successfully, as a video without a board. *)
Theorem C50_mvf_accepts_anything_refuted : forall numbers c d rest, ~ (c = 17 /\ d = 77) ->
  exists v, fst (parse_mvf numbers (c :: d :: rest) 0%nat) = Ok v /\ o_board v = [] /\ o_events v = [].
Proof.
  intros nu c d rest N. exists empty_oldv. split; [|auto]. unfold parse_mvf, pbind. cbn [get_u8]. unfold get_u8. cbn [nth_error]. replace ((c =? 17) && (d =? 77)) with false by lia. reflexivity.
Qed.
Print Assumptions C50_mvf_accepts_anything_refuted.
Theorem C50_mvf_error_refuted : exists raw, bytes raw /\ forall numbers, fst (parse_mvf numbers raw 0%nat) = Panic.
Proof.
  exists ([17; 77] ++ repeat 0 25 ++ [53] ++ repeat 0 46 ++ repeat 0 7 ++ [0; 0; 0; 0; 0; 0; 0] ++ repeat 0 9 ++ [3; 2; 0; 1; 0; 1]). split; [apply bytes_check; vm_compute; reflexivity|]. intros nu. reflexivity.
Qed.
Print Assumptions C50_mvf_error_refuted.
