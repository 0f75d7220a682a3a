(** * Proofs about the evf codec. *)
From Verif Require Import Base Spec BaseFacts LayMine LayMineProofs MineBoard Evf EvfSpec.
Open Scope Z_scope.

(** ** The encoder writes the format *)
Lemma u8_try_ok z : byte z -> u8_try z = Ok z.
Proof. unfold byte, u8_try; intros. replace ((0 <=? z) && (z <? 256)) with true by lia. reflexivity. Qed.

Lemma push16_ok raw z : u16 z -> push16 raw z = Ok (raw ++ be16 z).
Proof.
  unfold u16; intros. unfold push16, be16. rewrite Z.shiftr_div_pow2 by lia. change (2 ^ 8) with 256.
  rewrite !u8_try_ok; [reflexivity| |]; unfold byte.
  - apply Z.mod_pos_bound; lia.
  - split; [apply Z.div_pos; lia|apply Z.div_lt_upper_bound; lia].
Qed.

Lemma push24_ok raw z : u24 z -> push24 raw z = Ok (raw ++ be24 z).
Proof.
  unfold u24; intros. unfold push24, be24. rewrite !Z.shiftr_div_pow2 by lia.
  change (2 ^ 8) with 256. change (2 ^ 16) with 65536.
  rewrite !u8_try_ok; [reflexivity| | |]; unfold byte; try (apply Z.mod_pos_bound; lia).
  split; [apply Z.div_pos; lia|apply Z.div_lt_upper_bound; lia].
Qed.

Definition pstep (st : list Z * Z * nat) (b : bool) : list Z * Z * nat :=
  let '(raw, w, ptr) := st in
  let w := (Z.shiftl w 1) mod 256 in
  let w := if b then Z.lor w 1 else w in
  let ptr := (ptr + 1)%nat in
  if (ptr =? 8)%nat then (raw ++ [w], 0, 0%nat) else (raw, w, ptr).

Lemma pack_step_ok row column bd st p : rect row column bd -> inb row column p ->
  pack_step bd st p = Ok (pstep st (is_mine bd p)).
Proof.
  intros Hr Hp. destruct st as [[raw w] ptr]. destruct p as [i j]. unfold pack_step, pstep.
  cbn [fst snd].
  rewrite (get_ok Hr Hp). cbn [bind]. unfold is_mine. destruct ((ptr + 1 =? 8)%nat); reflexivity.
Qed.

Definition pflush (st : list Z * Z * nat) : list Z :=
  let '(raw, w, ptr) := st in
  if (0 <? ptr)%nat then raw ++ [Z.shiftl w (8 - Z.of_nat ptr) mod 256] else raw.

Lemma list8_ind {A} (Q : list A -> Prop) :
  (forall l, (length l < 8)%nat -> Q l) ->
  (forall b0 b1 b2 b3 b4 b5 b6 b7 rest, Q rest ->
     Q (b0 :: b1 :: b2 :: b3 :: b4 :: b5 :: b6 :: b7 :: rest)) ->
  forall l, Q l.
Proof.
  intros H1 H2.
  assert (H : forall n l, (length l <= n)%nat -> Q l).
  { induction n; intros l Hl.
    - apply H1. lia.
    - destruct (le_lt_dec 8 (length l)) as [Hg|]; [|auto].
      do 8 (destruct l as [|? l]; [simpl in Hg; lia|]).
      apply H2. apply IHn. simpl in Hl. lia. }
  intros l. exact (H _ l (le_n _)).
Qed.

Lemma pack_fold l : forall raw, pflush (fold_left pstep l (raw, 0, 0%nat)) = raw ++ pack l.
Proof.
  induction l using list8_ind; intros raw.
  - do 8 (destruct l as [|[] l];
      [try (now rewrite app_nil_r); reflexivity| |]); simpl in H; lia.
  - cbn [fold_left].
    replace (pstep _ b7) with (raw ++ [bits8 b0 b1 b2 b3 b4 b5 b6 b7], 0, 0%nat).
    + rewrite IHl, <- app_assoc. reflexivity.
    + destruct b0, b1, b2, b3, b4, b5, b6, b7; reflexivity.
Qed.

Lemma foldM_fold_map {S A B} (f : S -> A -> R S) (g : S -> B -> S) (h : A -> B) l :
  (forall s a, In a l -> f s a = Ok (g s (h a))) ->
  forall s, foldM f l s = Ok (fold_left g (map h l) s).
Proof.
  induction l as [|a l IH]; intros H s; [reflexivity|].
  cbn [foldM map fold_left]. rewrite H by (left; auto). cbn [bind]. apply IH. intros; apply H; right; auto.
Qed.

Lemma push_event_ok raw e : event_fits e -> push_event raw e = Ok (raw ++ event_bytes e).
Proof.
  intros (H1 & H2 & H3). unfold push_event, event_bytes.
  rewrite push24_ok by auto. cbn [bind]. rewrite push16_ok by auto. cbn [bind].
  rewrite push16_ok by auto. rewrite <- !app_assoc. reflexivity.
Qed.

Lemma push_events_ok l : Forall event_fits l ->
  forall raw, foldM push_event l raw = Ok (raw ++ flat_map event_bytes l).
Proof.
  induction 1 as [|e l He Hl IH]; intros raw; cbn [foldM flat_map].
  - now rewrite app_nil_r.
  - rewrite push_event_ok by auto. cbn [bind]. now rewrite IH, <- app_assoc.
Qed.

Lemma generate_evf_ok v hc : fits v ->
  generate_evf v hc = Ok (evf_file v (if hc then Some (v_checksum v) else None)).
Proof.
  intros (Hh & Hw & Hm & Hp & Hmo & Hb & Ht & _ & He & Hr & _).
  unfold generate_evf.
  rewrite push16_ok by auto. cbn [bind]. rewrite push16_ok by auto. cbn [bind].
  rewrite push16_ok by auto. cbn [bind]. rewrite push24_ok by auto. cbn [bind].
  rewrite (@foldM_fold_map _ _ _ _ pstep (is_mine (v_board v))).
  2:{ intros st p Hin. apply (@pack_step_ok (v_height v) (v_width v)); auto.
      apply in_grid; auto. }
  cbn [bind].
  match goal with |- context [fold_left pstep ?l ?s] =>
    pose proof (pack_fold l (fst (fst s))) as Hf; cbn [fst] in Hf;
    destruct (fold_left pstep l s) as [[raw1 w1] p1] end.
  cbn [pflush] in Hf. rewrite Hf. rewrite push_events_ok by auto. cbn [bind].
  assert (Hfl : (let flags := 0 in
     let flags := if v_completed v then Z.lor flags 128 else flags in
     let flags := if v_offical v then Z.lor flags 64 else flags in
     if v_fair v then Z.lor flags 32 else flags)
     = bits8 (v_completed v) (v_offical v) (v_fair v) false false false false false).
  { destruct (v_completed v), (v_offical v), (v_fair v); reflexivity. }
  cbv zeta in Hfl. rewrite Hfl.
  rewrite !Z.mod_small by lia.
  unfold evf_file, evf_body, evf_header, evf_strings, evf_board, positions, grid.
  destruct hc; cbn [flat_map]; rewrite ?app_nil_r, <- ?app_assoc; reflexivity.
Qed.

(** ** Readers *)
Definition reads {A} (p : P A) (bs : list Z) (a : A) : Prop :=
  forall pre post, p (pre ++ bs ++ post) (length pre) = (Ok a, (length pre + length bs)%nat).

Lemma reads_ret {A} (a : A) : reads (pret a) [] a.
Proof. intros pre post. unfold pret. f_equal. simpl. lia. Qed.

Lemma reads_bind {A B} (p : P A) (k : A -> P B) bs1 bs2 a b :
  reads p bs1 a -> reads (k a) bs2 b -> reads (pbind p k) (bs1 ++ bs2) b.
Proof.
  intros H1 H2 pre post. unfold pbind. rewrite <- app_assoc, H1.
  specialize (H2 (pre ++ bs1) post). rewrite app_length, <- app_assoc in H2. rewrite H2.
  f_equal. rewrite app_length. lia.
Qed.

Lemma reads_bind0 {A B} (p : P A) (k : A -> P B) bs a b :
  reads p [] a -> reads (k a) bs b -> reads (pbind p k) bs b.
Proof. intros H1 H2. exact (reads_bind H1 H2). Qed.

Lemma reads_lift {A} (r : R A) a : r = Ok a -> reads (plift r) [] a.
Proof. intros -> pre post. unfold plift. f_equal. simpl; lia. Qed.

Lemma reads_u8 x : reads get_u8 [x] x.
Proof.
  intros pre post. unfold get_u8. rewrite nth_error_app2 by lia. rewrite Nat.sub_diag. simpl.
  f_equal. lia.
Qed.

Lemma lor_shift a b k : 0 <= k -> 0 <= b < 2 ^ k -> Z.lor (Z.shiftl a k) b = a * 2 ^ k + b.
Proof.
  intros Hk Hb. rewrite Z.shiftl_mul_pow2 by lia. symmetry.
  assert (E : Z.land (a * 2 ^ k) b = 0); [|rewrite Z.add_nocarry_lxor, Z.lxor_lor; auto].
  apply Z.bits_inj'. intros n Hn. rewrite Z.bits_0, Z.land_spec.
  destruct (Z_lt_dec n k).
  - rewrite Z.mul_pow2_bits_low by lia. reflexivity.
  - replace (Z.testbit b n) with false; [apply andb_false_r|]. symmetry.
    apply Z.testbit_false; [lia|]. rewrite Z.div_small; [reflexivity|].
    split; [lia|]. apply Z.lt_le_trans with (2 ^ k); [lia|]. apply Z.pow_le_mono_r; lia.
Qed.

Lemma lor16 a b : byte b -> Z.lor (Z.shiftl a 8) b = a * 256 + b.
Proof. intros. apply (@lor_shift a b 8); unfold byte in *; simpl; lia. Qed.

Lemma lor24 a b c : byte b -> byte c ->
  Z.lor (Z.lor (Z.shiftl a 16) (Z.shiftl b 8)) c = a * 65536 + b * 256 + c.
Proof.
  intros Hb Hc. unfold byte in *.
  assert (E : Z.lor (Z.shiftl a 16) (Z.shiftl b 8) = Z.shiftl (a * 256 + b) 8).
  { rewrite <- lor16 by auto. rewrite Z.shiftl_lor, Z.shiftl_shiftl by lia. reflexivity. }
  rewrite E, lor16 by auto. lia.
Qed.

Lemma lor32 a b c d : byte b -> byte c -> byte d ->
  Z.lor (Z.lor (Z.lor (Z.shiftl a 24) (Z.shiftl b 16)) (Z.shiftl c 8)) d
  = a * 16777216 + b * 65536 + c * 256 + d.
Proof.
  intros Hb Hc Hd.
  assert (E : Z.lor (Z.lor (Z.shiftl a 24) (Z.shiftl b 16)) (Z.shiftl c 8)
              = Z.shiftl (a * 65536 + b * 256 + c) 8).
  { rewrite <- lor24 by auto. rewrite !Z.shiftl_lor, !Z.shiftl_shiftl by lia. reflexivity. }
  rewrite E, lor16 by auto. lia.
Qed.

Lemma reads_u16 z : u16 z -> reads get_u16 (be16 z) z.
Proof.
  intros Hz. unfold u16 in Hz. unfold get_u16, be16.
  change [z / 256; z mod 256] with ([z / 256] ++ [z mod 256] ++ []).
  eapply reads_bind; [apply reads_u8|]. eapply reads_bind; [apply reads_u8|].
  rewrite lor16 by (apply Z.mod_pos_bound; lia).
  replace (z / 256 * 256 + z mod 256) with z; [apply reads_ret|].
  pose proof (Z.div_mod z 256). lia.
Qed.

Lemma reads_u24 z : u24 z -> reads get_u24 (be24 z) z.
Proof.
  intros Hz. unfold u24 in Hz. unfold get_u24, be24.
  change [z / 65536; z / 256 mod 256; z mod 256]
    with ([z / 65536] ++ [z / 256 mod 256] ++ [z mod 256] ++ []).
  do 3 (eapply reads_bind; [apply reads_u8|]).
  rewrite lor24 by (apply Z.mod_pos_bound; lia).
  replace (z / 65536 * 65536 + z / 256 mod 256 * 256 + z mod 256) with z; [apply reads_ret|].
  pose proof (Z.div_mod z 256). pose proof (Z.div_mod (z / 256) 256).
  rewrite Z.div_div in * by lia. change (256 * 256) with 65536 in *. lia.
Qed.

Lemma string_loop_reads s : text s -> forall fuel acc, (length s < fuel)%nat ->
  reads (string_loop fuel acc) (s ++ [0]) (acc ++ s).
Proof.
  induction 1 as [|c s Hc Hs IH]; intros fuel acc Hf; (destruct fuel; [simpl in Hf; lia|]).
  - cbn [string_loop app]. rewrite app_nil_r. change [0] with ([0] ++ []).
    eapply reads_bind; [apply reads_u8|]. apply reads_ret.
  - cbn [string_loop app]. change (c :: s ++ [0]) with ([c] ++ (s ++ [0])).
    eapply reads_bind; [apply reads_u8|].
    replace (c =? 0) with false by lia.
    replace (acc ++ c :: s) with ((acc ++ [c]) ++ s) by (rewrite <- app_assoc; reflexivity).
    apply IH. simpl in Hf. lia.
Qed.

Lemma get_string_reads s : text s -> reads get_string (s ++ [0]) s.
Proof.
  intros Hs pre post. unfold get_string. apply (@string_loop_reads s Hs _ []).
  rewrite !app_length. simpl. lia.
Qed.

(** ** Unpacking the board *)
Definition marks (bd : board) (l : list (pos * bool)) : board :=
  fold_left (fun b pb => if snd pb : bool then upd b (fst pb) (-1) else b) l bd.

Definition bitat (w k : Z) : bool := negb (Z.land w (Z.shiftl 1 k) =? 0).

(** Bits taken from the current byte. *)
Lemma unpack_mid row column ps : forall bd w k,
  rect row column bd -> Forall (inb row column) ps -> (length ps <= k)%nat ->
  forall raw o,
  pfold unpack_step ps (bd, w, Z.of_nat k) raw o
  = (Ok (marks bd (combine ps (map (fun i => bitat w (Z.of_nat k - 1 - Z.of_nat i))
                                   (seq 0 (length ps)))),
         w, Z.of_nat k - Z.of_nat (length ps)), o).
Proof.
  induction ps as [|p ps IH]; intros bd w k Hr Hps Hk raw o.
  - simpl. unfold pret. f_equal. f_equal. f_equal. lia.
  - destruct k as [|k]; [simpl in Hk; lia|]. simpl in Hk.
    inversion Hps as [|? ? Hp Hps']; subst.
    cbn [pfold]. unfold pbind at 1. unfold unpack_step at 1.
    replace (Z.of_nat (S k) - 1 <? 0) with false by lia.
    unfold pbind at 1. cbn [pret].
    fold (bitat w (Z.of_nat (S k) - 1)).
    assert (Hstep : forall bb : bool,
       (if bb
        then get* b := plift (set bd (fst p) (snd p) (-1)) in pret (b, w, Z.of_nat (S k) - 1)
        else pret (bd, w, Z.of_nat (S k) - 1)) raw o
       = (Ok (if bb then upd bd p (-1) else bd, w, Z.of_nat k), o)).
    { intros []; unfold pbind, plift, pret.
      - destruct p as [i j]. cbn [fst snd]. rewrite (set_ok (-1) Hr Hp). repeat f_equal. lia.
      - repeat f_equal. lia. }
    rewrite Hstep. rewrite IH; [|destruct bitat; auto using rect_upd|auto|lia].
    cbn [length seq map combine]. unfold marks at 2. cbn [fold_left fst snd].
    rewrite <- seq_shift, map_map.
    replace (Z.of_nat (S k) - 1 - Z.of_nat 0) with (Z.of_nat (S k) - 1) by lia.
    rewrite (map_ext (fun i => bitat w (Z.of_nat k - 1 - Z.of_nat i))
                     (fun x => bitat w (Z.of_nat (S k) - 1 - Z.of_nat (S x))))
      by (intros; f_equal; lia).
    unfold marks. f_equal. f_equal. f_equal. lia.
Qed.

Lemma pfold_app {S A} (f : S -> A -> P S) l1 l2 s raw o :
  pfold f (l1 ++ l2) s raw o = pbind (pfold f l1 s) (pfold f l2) raw o.
Proof.
  revert s o. induction l1 as [|x l1 IH]; intros s o; [reflexivity|].
  cbn [pfold app]. unfold pbind. destruct (f s x raw o) as [[] ?]; auto. rewrite IH. reflexivity.
Qed.

Lemma unpack_refill bd w p x raw o : nth_error raw o = Some x ->
  unpack_step (bd, w, 0) p raw o = unpack_step (bd, x, 8) p raw (o + 1)%nat.
Proof.
  intros H. unfold unpack_step. change (0 - 1 <? 0) with true. change (8 - 1 <? 0) with false.
  cbv iota. cbv [pbind pret get_u8]. rewrite H. replace (S o) with (o + 1)%nat by lia. reflexivity.
Qed.

(** A run of at most eight cells that starts on a byte boundary. *)
Lemma unpack_chunk row column bd w ps x : rect row column bd -> Forall (inb row column) ps ->
  (1 <= length ps <= 8)%nat ->
  reads (pfold unpack_step ps (bd, w, 0)) [x]
    (marks bd (combine ps (map (fun i => bitat x (7 - Z.of_nat i)) (seq 0 (length ps)))), x,
     8 - Z.of_nat (length ps)).
Proof.
  intros Hr Hps Hlen pre post. destruct ps as [|p ps]; [simpl in Hlen; lia|].
  assert (E : pfold unpack_step (p :: ps) (bd, w, 0) (pre ++ [x] ++ post) (length pre)
      = pfold unpack_step (p :: ps) (bd, x, 8) (pre ++ [x] ++ post) (length pre + 1)%nat).
  { cbn [pfold]. unfold pbind. rewrite (@unpack_refill _ w _ x); [reflexivity|].
    rewrite nth_error_app2, Nat.sub_diag by lia. reflexivity. }
  rewrite E. change 8 with (Z.of_nat 8) at 1.
  rewrite (@unpack_mid row column) by (auto; simpl in *; lia).
  f_equal.
Qed.

Lemma bits8_at b0 b1 b2 b3 b4 b5 b6 b7 :
  map (fun i => bitat (bits8 b0 b1 b2 b3 b4 b5 b6 b7) (7 - Z.of_nat i)) (seq 0 8)
  = [b0; b1; b2; b3; b4; b5; b6; b7].
Proof. destruct b0, b1, b2, b3, b4, b5, b6, b7; reflexivity. Qed.

Lemma pack_short l : (1 <= length l < 8)%nat -> exists x, pack l = [x] /\
  map (fun i => bitat x (7 - Z.of_nat i)) (seq 0 (length l)) = l.
Proof.
  intros Hl. destruct l as [|? l]; [simpl in Hl; lia|].
  do 7 (destruct l as [|? l]; [eexists; split; [reflexivity|];
    repeat match goal with b : bool |- _ => destruct b end; reflexivity|]).
  simpl in Hl; lia.
Qed.

Lemma marks_rect row column l : forall bd, rect row column bd ->
  Forall (fun pb => inb row column (fst pb)) l -> rect row column (marks bd l).
Proof.
  induction l as [|[p []] l IH]; intros bd Hr Hl; inversion Hl; subst; simpl; auto.
  apply IH; auto. apply rect_upd; auto.
Qed.

Lemma Forall_combine_fst {A B} (Q : A -> Prop) (l : list A) (m : list B) :
  Forall Q l -> Forall (fun x => Q (fst x)) (combine l m).
Proof.
  intros H. revert m. induction H; intros m; simpl; [constructor|].
  destruct m; constructor; auto.
Qed.

Lemma combine_app2 {A B} (l1 l2 : list A) (m1 m2 : list B) : length l1 = length m1 ->
  combine (l1 ++ l2) (m1 ++ m2) = combine l1 m1 ++ combine l2 m2.
Proof.
  revert m1. induction l1; intros [|? m1] H; simpl in *; try lia; [reflexivity|].
  f_equal. apply IHl1. lia.
Qed.

Lemma unpack_reads row column bs : forall ps bd w,
  rect row column bd -> Forall (inb row column) ps -> length ps = length bs ->
  exists w' k', reads (pfold unpack_step ps (bd, w, 0)) (pack bs) (marks bd (combine ps bs), w', k').
Proof.
  induction bs as [bs Hl|b0 b1 b2 b3 b4 b5 b6 b7 rest IH] using list8_ind; intros ps bd w Hr Hps Hlen.
  - destruct (Nat.eq_dec (length bs) 0) as [E0|].
    + destruct bs; [|simpl in E0; lia]. destruct ps; [|simpl in Hlen; lia].
      exists w, 0. apply reads_ret.
    + destruct (pack_short (l := bs)) as (x & Ex & Eb); [lia|].
      rewrite Ex. exists x, (8 - Z.of_nat (length ps)).
      rewrite <- Eb, <- Hlen. apply (@unpack_chunk row column); auto; lia.
  - assert (Hps8 : exists p1 p2, ps = p1 ++ p2 /\ length p1 = 8%nat /\ length p2 = length rest).
    { exists (firstn 8 ps), (skipn 8 ps). rewrite firstn_skipn, firstn_length, skipn_length.
      simpl in Hlen. split; [reflexivity|]. lia. }
    destruct Hps8 as (p1 & p2 & -> & Hp1 & Hp2). apply Forall_app in Hps as [HF1 HF2].
    set (x := bits8 b0 b1 b2 b3 b4 b5 b6 b7).
    pose proof (@unpack_chunk row column bd w p1 x Hr HF1 ltac:(lia)) as H1.
    rewrite Hp1 in H1. unfold x in H1 at 2. rewrite bits8_at in H1.
    change (8 - Z.of_nat 8) with 0 in H1.
    destruct (IH p2 (marks bd (combine p1 [b0;b1;b2;b3;b4;b5;b6;b7])) x) as (w' & k' & H2); auto.
    { apply marks_rect; auto. apply Forall_combine_fst; auto. }
    exists w', k'. cbn [pack]. fold x.
    change (x :: pack rest) with ([x] ++ pack rest).
    change (b0 :: b1 :: b2 :: b3 :: b4 :: b5 :: b6 :: b7 :: rest)
      with ([b0; b1; b2; b3; b4; b5; b6; b7] ++ rest).
    rewrite combine_app2 by (rewrite Hp1; reflexivity).
    unfold marks at 1. rewrite fold_left_app.
    pose proof (reads_bind H1 H2) as H3.
    intros pre post. rewrite pfold_app. apply H3.
Qed.

Lemma marks_cell row column l : forall bd p, rect row column bd ->
  Forall (fun pb => inb row column (fst pb)) l -> NoDup (map fst l) ->
  cell (marks bd l) p = if existsb (fun pb => posb (fst pb) p && snd pb) l then -1 else cell bd p.
Proof.
  induction l as [|[q b] l IH]; intros bd p Hr Hl Hnd; [reflexivity|].
  inversion Hl; subst. inversion Hnd; subst. cbn [fst snd] in *.
  cbn [existsb fst snd]. unfold marks. cbn [fold_left fst snd].
  change (cell (marks (if b then upd bd q (-1) else bd) l) p =
    (if posb q p && b || existsb (fun pb => posb (fst pb) p && snd pb) l then -1 else cell bd p)).
  rewrite IH; auto; [|destruct b; auto using rect_upd].
  destruct (existsb _ l) eqn:E; [now rewrite orb_true_r|]. rewrite orb_false_r.
  destruct b; [|rewrite andb_false_r; reflexivity].
  rewrite (cell_upd _ _ Hr) by auto. rewrite andb_true_r. reflexivity.
Qed.

Lemma combine_map_r {A B} (f : A -> B) l : combine l (map f l) = map (fun x => (x, f x)) l.
Proof. induction l; simpl; f_equal; auto. Qed.
Lemma existsb_map {A B} (f : A -> B) g l : existsb g (map f l) = existsb (fun x => g (f x)) l.
Proof. induction l; simpl; f_equal; auto. Qed.

(** The board read back: -1 exactly on the mines, 0 elsewhere. *)
Lemma marks_positions row column (f : pos -> bool) p : inb row column p ->
  cell (marks (mkboard row column 0) (combine (positions row column) (map f (positions row column)))) p
  = if f p then -1 else 0.
Proof.
  intros Hp.
  assert (Hin : Forall (inb row column) (positions row column)).
  { apply Forall_forall. intros q. apply in_positions. }
  rewrite (@marks_cell row column).
  - rewrite cell_mkboard by auto.
    replace (existsb _ _) with (f p); [reflexivity|].
    rewrite combine_map_r, existsb_map. cbn [fst snd].
    destruct (f p) eqn:E; symmetry.
    + apply existsb_exists. exists p. split; [apply in_positions; auto|]. now rewrite posb_refl.
    + apply not_true_is_false. intros H. apply existsb_exists in H as (q & _ & Hq).
      apply andb_true_iff in Hq as [Hq1 Hq2]. destruct (posb_spec q p); congruence.
  - apply rect_mkboard.
  - apply Forall_combine_fst; auto.
  - rewrite combine_map_r, map_map. cbn [fst]. rewrite map_id. apply NoDup_positions.
Qed.

(** ** Events *)
Lemma code_op_kind e : code_op (kind_code e) = e \/ (code_op (kind_code e) = e_other /\ ~ nine_kinds e).
Proof.
  destruct e; try (left; reflexivity);
    right; (split; [reflexivity|unfold nine_kinds; simpl; intuition discriminate]).
Qed.

Lemma code_op_nine e : nine_kinds e \/ e = e_other -> code_op (kind_code e) = e.
Proof. intros [H| ->]; [|reflexivity]. destruct (code_op_kind e) as [|[_ []]]; auto. Qed.

Lemma kind_code_not_end e : (kind_code e =? 0) = false /\ (kind_code e =? 255) = false.
Proof. destruct e; auto. Qed.

Definition event_known (e : vev) : Prop := nine_kinds (ve_mouse e) \/ ve_mouse e = e_other.

Lemma event_loop_reads (l : list vev) (fin : bool) : Forall event_fits l -> Forall event_known l ->
  forall fuel acc, (length l < fuel)%nat ->
  reads (event_loop fuel acc) (flat_map event_bytes l ++ [if fin then 0 else 255]) (acc ++ l, fin).
Proof.
  induction l as [|e l IH]; intros Hf Hk fuel acc Hfu; (destruct fuel; [simpl in Hfu; lia|]).
  - cbn [event_loop flat_map app]. rewrite app_nil_r.
    replace [if fin then 0 else 255] with ([if fin then 0 else 255] ++ []) by apply app_nil_r.
    eapply reads_bind; [apply reads_u8|]. destruct fin; cbn; apply reads_ret.
  - inversion Hf as [|? ? (H1 & H2 & H3) Hf']; inversion Hk as [|? ? Hke Hk']; subst.
    cbn [event_loop flat_map]. unfold event_bytes at 1.
    change (kind_code (ve_mouse e) :: ?x) with ([kind_code (ve_mouse e)] ++ x).
    rewrite <- !app_assoc.
    eapply reads_bind; [apply reads_u8|].
    destruct (kind_code_not_end (ve_mouse e)) as [-> ->].
    eapply reads_bind; [apply reads_u24; auto|].
    eapply reads_bind; [apply reads_u16; auto|].
    eapply reads_bind; [apply reads_u16; auto|].
    rewrite code_op_nine by (exact Hke).
    replace (acc ++ e :: l) with ((acc ++ [e]) ++ l) by (rewrite <- app_assoc; reflexivity).
    destruct e as [em et ex ey]; cbn [ve_mouse ve_ms ve_x ve_y] in *. apply IH; auto. simpl in Hfu. lia.
Qed.

Lemma get_events_reads (l : list vev) (fin : bool) : Forall event_fits l -> Forall event_known l ->
  reads get_events (flat_map event_bytes l ++ [if fin then 0 else 255]) (l, fin).
Proof.
  intros H1 H2 pre post. unfold get_events. apply (@event_loop_reads l fin H1 H2 _ []).
  rewrite !app_length. assert (length l <= length (flat_map event_bytes l))%nat; [|lia].
  clear. induction l as [|e l IH]; simpl; [lia|]. rewrite ?app_length. simpl. lia.
Qed.

Lemma csum_reads l : forall n acc k, length l = n ->
  reads (pfold (fun l (_ : nat) => get* x := get_u8 in pret (l ++ [x])) (seq k n) acc) l (acc ++ l).
Proof.
  induction l as [|x l IH]; intros n acc k <-; cbn [length seq pfold].
  - rewrite app_nil_r. apply reads_ret.
  - change (x :: l) with ([x] ++ l). eapply reads_bind.
    + change [x] with ([x] ++ []). eapply reads_bind; [apply reads_u8|apply reads_ret].
    + rewrite app_assoc. apply IH. reflexivity.
Qed.

Lemma legal_unique row column b1 b2 : legal_board row column b1 -> rect row column b2 ->
  (forall p, inb row column p -> is_mine b2 p = is_mine b1 p) ->
  (forall p, inb row column p -> is_mine b2 p = false ->
     cell b2 p = Z.of_nat (adj_count row column (is_mine b2) p)) ->
  b2 = b1.
Proof.
  intros [Hr1 H1] Hr2 Hm Hc. apply (@board_ext row column); auto. intros p Hp.
  specialize (H1 p Hp). pose proof (Hm p Hp) as Hmp. unfold is_mine in Hmp.
  destruct H1 as [H1|H1]; rewrite H1 in *.
  - destruct (Z.eqb_spec (cell b2 p) (-1)); [auto|discriminate].
  - replace (Z.of_nat (adj_count row column (is_mine b1) p) =? -1) with false in Hmp by lia.
    rewrite Hc by auto. f_equal. unfold adj_count. apply count_ext. intros q Hq.
    rewrite Hm; auto. apply in_positions; auto.
Qed.

(** ** The whole file *)
Definition read_back (v : video) (cs : option (list Z)) : video :=
  Video (v_completed v) (v_offical v) (v_fair v) (v_height v) (v_width v) (v_mine_num v) (v_pix v)
        (v_mode v) (v_bbbv v) (v_rtime_ms v) (v_software v) (v_player v) (v_race v) (v_uniq v)
        (v_start v) (v_end v) (v_country v) (v_uuid v) (v_board v)
        (level_of (v_height v) (v_width v) (v_mine_num v)) (v_events v)
        (match cs with Some c => c | None => repeat 0 32 end).

Lemma level_of_ok h w m : level_spec h w m (level_of h w m).
Proof.
  unfold level_spec, level_of.
  destruct (Nat.eqb_spec h 8); destruct (Nat.eqb_spec w 8); destruct (Z.eqb_spec m 10);
  destruct (Nat.eqb_spec h 16); destruct (Nat.eqb_spec w 16); destruct (Z.eqb_spec m 40);
  destruct (Nat.eqb_spec w 30); destruct (Z.eqb_spec m 99); cbn [andb]; lia.
Qed.

Lemma flag_bits a b c :
  negb (Z.land (bits8 a b c false false false false false) 128 =? 0) = a /\
  negb (Z.land (bits8 a b c false false false false false) 64 =? 0) = b /\
  negb (Z.land (bits8 a b c false false false false false) 32 =? 0) = c.
Proof. destruct a, b, c; auto. Qed.

Lemma board_read_back row column (b : board) : (1 <= row)%nat -> legal_board row column b ->
  exists m w k, reads (pfold unpack_step (grid row column) (mkboard row column 0, 0, 0))
                  (pack (map (is_mine b) (positions row column))) (m, w, k) /\
    cal_board_numbers m = Ok b.
Proof.
  intros Hrow Hl.
  assert (Hin : Forall (inb row column) (positions row column)).
  { apply Forall_forall. intros q. apply in_positions. }
  destruct (@unpack_reads row column (map (is_mine b) (positions row column))
              (positions row column) (mkboard row column 0) 0) as (w & k & H); auto.
  - apply rect_mkboard.
  - now rewrite map_length.
  - eexists _, w, k. split; [exact H|].
    set (m := marks _ _).
    assert (Hrm : rect row column m).
    { apply marks_rect; [apply rect_mkboard|apply Forall_combine_fst; auto]. }
    assert (Hcm : forall p, inb row column p -> cell m p = if is_mine b p then -1 else 0).
    { intros; apply marks_positions; auto. }
    assert (Hmm : forall p, inb row column p -> is_mine m p = is_mine b p).
    { intros p Hp. unfold is_mine at 1. rewrite Hcm by auto. destruct (is_mine b p); reflexivity. }
    destruct (cal_board_numbers_ok Hrm) as (b' & E & Hr' & Hc'); [lia| |].
    + intros p Hp. rewrite Hcm by auto. destruct is_mine; auto.
    + rewrite E. f_equal.
      assert (Hm' : forall p, inb row column p -> is_mine b' p = is_mine m p).
      { intros p Hp. unfold is_mine at 1. rewrite Hc' by auto.
        destruct (is_mine m p); [reflexivity|]. lia. }
      apply (@legal_unique row column); auto.
      * intros p Hp. rewrite Hm', Hmm; auto.
      * intros p Hp Hf. rewrite Hm' in Hf by auto. rewrite Hc', Hf by auto. f_equal.
        unfold adj_count. apply count_ext. intros q Hq. rewrite Hm'; auto. apply in_positions; auto.
Qed.

Lemma reads_app_assoc {A} (p : P A) b1 b2 b3 a :
  reads p (b1 ++ b2 ++ b3) a -> reads p ((b1 ++ b2) ++ b3) a.
Proof. now rewrite <- app_assoc. Qed.

Lemma parse_reads v cs : fits v -> (1 <= v_height v)%nat -> Forall event_known (v_events v) ->
  match cs with Some c => length c = 32%nat | None => True end ->
  reads parse_video (evf_file v cs) (read_back v cs).
Proof.
  intros (Hh & Hw & Hm & Hp & Hmo & Hb & Ht & Hs & He & Hl) Hrow Hk Hcs.
  rewrite !Forall_cons_iff in Hs. destruct Hs as (S1 & S2 & S3 & S4 & S5 & S6 & S7 & S8 & _).
  destruct (board_read_back Hrow Hl) as (m & w & k & HB & HC).
  unfold evf_file, evf_body, evf_header, evf_strings, evf_board. cbn [flat_map].
  rewrite app_nil_r.
  change ([0; ?a; ?b; ?c] ++ ?r) with ([0] ++ [a] ++ [b] ++ [c] ++ r).
  rewrite <- !(app_assoc _ _ (_ ++ _)).
  repeat rewrite <- (app_assoc [_]).
  rewrite <- !app_assoc.
  unfold parse_video.
  eapply reads_bind; [apply reads_u8|].
  eapply reads_bind; [apply reads_u8|].
  eapply reads_bind; [apply reads_u8|].
  eapply reads_bind; [apply reads_u8|].
  eapply reads_bind; [apply reads_u16; auto|].
  eapply reads_bind; [apply reads_u8|].
  eapply reads_bind; [apply reads_u16; auto|].
  eapply reads_bind; [apply reads_u16; auto|].
  eapply reads_bind; [apply reads_u24; auto|].
  rewrite !Nat2Z.id.
  destruct (flag_bits (v_completed v) (v_offical v) (v_fair v)) as (-> & -> & ->).
  do 8 (rewrite (app_assoc _ [0]); eapply reads_bind; [apply get_string_reads; auto|]).
  eapply reads_bind; [exact HB|]. cbv beta iota.
  eapply reads_bind0; [apply reads_lift; exact HC|].
  destruct cs as [c|].
  - change (0 :: c) with ([0] ++ c). rewrite app_assoc.
    eapply reads_bind; [apply (@get_events_reads (v_events v) true); auto|]. cbv beta iota.
    replace c with (c ++ []) at 1 by apply app_nil_r.
    eapply reads_bind; [apply (@csum_reads c 32 [] 0); auto|]. apply reads_ret.
  - replace (flat_map event_bytes (v_events v) ++ [255])
      with ((flat_map event_bytes (v_events v) ++ [255]) ++ []) by apply app_nil_r.
    eapply reads_bind; [apply (@get_events_reads (v_events v) false); auto|]. cbv beta iota.
    eapply reads_bind0; [apply reads_ret|]. apply reads_ret.
Qed.
