(** * The evf parser on arbitrary bytes: no panic, termination, what it accepts, truncation. *)
From Verif Require Import Base Spec BaseFacts LayMine LayMineProofs MineBoard Evf EvfSpec EvfProofs.
Open Scope Z_scope.

(** [yields pan p Q]: on byte strings, [p] returns a value satisfying [Q] or FileIsTooShort; it
    panics only if [pan] holds and never runs out of fuel. *)
Definition outcome {A} (pan : Prop) (Q : A -> Prop) (r : R A) : Prop :=
  match r with Ok a => Q a | Err e => e = FileIsTooShort | Panic => pan | OutOfFuel => False end.

Definition yields {A} (pan : Prop) (p : P A) (Q : A -> Prop) : Prop :=
  forall raw o, bytes raw -> outcome pan Q (fst (p raw o)).

Lemma yields_ret {A} pan (a : A) (Q : A -> Prop) : Q a -> yields pan (pret a) Q.
Proof. intros H raw o _. exact H. Qed.

Lemma yields_bind {A B} pan (p : P A) (k : A -> P B) Q Q' :
  yields pan p Q -> (forall a, Q a -> yields pan (k a) Q') -> yields pan (pbind p k) Q'.
Proof.
  intros H1 H2 raw o Hb. unfold pbind. specialize (H1 raw o Hb).
  destruct (p raw o) as [[a|e| |] o']; simpl in *; auto. apply H2; auto.
Qed.

Lemma yields_lift {A} pan (r : R A) Q : outcome pan Q r -> yields pan (plift r) Q.
Proof. intros H raw o _. exact H. Qed.

Lemma yields_weaken {A} (pan pan' : Prop) (p : P A) (Q Q' : A -> Prop) :
  yields pan p Q -> (pan -> pan') -> (forall a, Q a -> Q' a) -> yields pan' p Q'.
Proof.
  intros H1 Hp Hq raw o Hb. specialize (H1 raw o Hb). destruct (fst (p raw o)); simpl in *; auto.
Qed.

Lemma yields_u8 pan : yields pan get_u8 byte.
Proof.
  intros raw o Hb. unfold get_u8. simpl. destruct (nth_error raw o) eqn:E; simpl; auto.
  eapply Forall_forall; [exact Hb|]. eapply nth_error_In; eauto.
Qed.

Lemma yields_u16 pan : yields pan get_u16 u16.
Proof.
  unfold get_u16. do 2 (eapply yields_bind; [apply yields_u8|intros ? ?]).
  apply yields_ret. rewrite lor16 by auto. unfold byte, u16 in *. lia.
Qed.

Lemma yields_u24 pan : yields pan get_u24 u24.
Proof.
  unfold get_u24. do 3 (eapply yields_bind; [apply yields_u8|intros ? ?]).
  apply yields_ret. rewrite lor24 by auto. unfold byte, u24 in *. lia.
Qed.

Lemma string_loop_yields pan fuel : forall acc raw o, bytes raw -> text acc ->
  (length raw < o + fuel)%nat -> (1 <= fuel)%nat ->
  outcome pan text (fst (string_loop fuel acc raw o)).
Proof.
  induction fuel as [|f IH]; intros acc raw o Hb Ha Hf H1; [lia|]. cbn [string_loop].
  unfold pbind, get_char, get_u8.
  destruct (nth_error raw o) as [c|] eqn:E; [|simpl; reflexivity].
  assert (o < length raw)%nat by (apply nth_error_Some; congruence).
  destruct (Z.eqb_spec c 0); [exact Ha|].
  assert (byte c). { eapply Forall_forall; [exact Hb|]. eapply nth_error_In; eauto. }
  apply IH; auto; [|lia|lia].
  apply Forall_app; split; auto. constructor; auto. unfold byte in *; lia.
Qed.

Lemma yields_string pan : yields pan get_string text.
Proof. intros raw o Hb. apply string_loop_yields; auto; [constructor|lia|lia]. Qed.

Lemma code_op_known c t x y : event_known (VEv (code_op c) t x y).
Proof.
  unfold event_known, nine_kinds, code_op; simpl.
  repeat match goal with |- context [c =? ?k] => destruct (c =? k); [tauto|] end. tauto.
Qed.

Lemma event_loop_yields pan fuel : forall acc raw o, bytes raw ->
  Forall event_fits acc -> Forall event_known acc ->
  (length raw < o + fuel)%nat -> (1 <= fuel)%nat ->
  outcome pan (fun r => Forall event_fits (fst r) /\ Forall event_known (fst r))
          (fst (event_loop fuel acc raw o)).
Proof.
  induction fuel as [|f IH]; intros acc raw o Hb Ha Hk Hf H1; [lia|]. cbn [event_loop].
  unfold pbind at 1. unfold get_u8 at 1.
  destruct (nth_error raw o) as [c|] eqn:E; [|simpl; reflexivity].
  assert (o < length raw)%nat by (apply nth_error_Some; congruence).
  destruct (Z.eqb_spec c 0); [simpl; auto|]. destruct (Z.eqb_spec c 255); [simpl; auto|].
  unfold pbind at 1. pose proof (@yields_u24 pan raw (S o) Hb) as Y1.
  destruct (get_u24 raw (S o)) as [[t|e| |] o1] eqn:E1; simpl in Y1; try exact Y1.
  assert (o < o1)%nat.
  { revert E1. unfold get_u24, pbind, get_u8, pret.
    repeat (destruct (nth_error raw _); [|discriminate]). intros G; inversion G; lia. }
  unfold pbind at 1. pose proof (@yields_u16 pan raw o1 Hb) as Y2.
  destruct (get_u16 raw o1) as [[x|e| |] o2] eqn:E2; simpl in Y2; try exact Y2.
  assert (o1 <= o2)%nat.
  { revert E2. unfold get_u16, pbind, get_u8, pret.
    repeat (destruct (nth_error raw _); [|discriminate]). intros G; inversion G; lia. }
  unfold pbind at 1. pose proof (@yields_u16 pan raw o2 Hb) as Y3.
  destruct (get_u16 raw o2) as [[y|e| |] o3] eqn:E3; simpl in Y3; try exact Y3.
  assert (o2 <= o3)%nat.
  { revert E3. unfold get_u16, pbind, get_u8, pret.
    repeat (destruct (nth_error raw _); [|discriminate]). intros G; inversion G; lia. }
  destruct f as [|f]; [lia|].
  apply IH; auto; [| |lia|lia]; apply Forall_app; split; auto.
  - repeat constructor; simpl; auto; try (apply Y1); try apply Y2; apply Y3.
  - constructor; auto using code_op_known.
Qed.

Lemma yields_events pan : yields pan get_events
  (fun r => Forall event_fits (fst r) /\ Forall event_known (fst r)).
Proof. intros raw o Hb. apply event_loop_yields; auto; lia. Qed.

Definition mines01 (row column : nat) (b : board) : Prop :=
  rect row column b /\ forall p, inb row column p -> cell b p = 0 \/ cell b p = -1.

Lemma unpack_step_yields pan row column st p : mines01 row column (fst (fst st)) ->
  inb row column p -> yields pan (unpack_step st p) (fun st' => mines01 row column (fst (fst st'))).
Proof.
  destruct st as [[b w] k]. cbn [fst]. intros Hb Hp. unfold unpack_step.
  eapply yields_bind with (Q := fun _ => True).
  { destruct (k - 1 <? 0); [|now apply yields_ret].
    eapply yields_bind; [apply yields_u8|]. intros; now apply yields_ret. }
  intros [w' k'] _. destruct (negb _); [|apply yields_ret; exact Hb].
  destruct p as [i j]. cbn [fst snd]. destruct Hb as [Hr Hc]. rewrite (set_ok (-1) Hr Hp).
  eapply yields_bind with (Q := mines01 row column); [apply yields_lift|intros; apply yields_ret; auto].
  split; [apply rect_upd; auto|]. intros q Hq. rewrite (cell_upd _ _ Hr Hp).
  destruct (posb _ q); auto.
Qed.

Lemma pfold_yields {S A} pan (f : S -> A -> P S) (I : S -> Prop) l :
  (forall s a, I s -> In a l -> yields pan (f s a) I) -> forall s, I s -> yields pan (pfold f l s) I.
Proof.
  induction l as [|a l IH]; intros H s Hs; cbn [pfold]; [now apply yields_ret|].
  eapply yields_bind; [apply H; auto; now left|]. intros. apply IH; auto. intros; apply H; auto. now right.
Qed.

Lemma mines01_start row column : mines01 row column (mkboard row column 0).
Proof. split; [apply rect_mkboard|]. intros. rewrite cell_mkboard; auto. Qed.

Lemma cal_board_numbers_legal row column b : (1 <= row)%nat -> mines01 row column b ->
  exists b', cal_board_numbers b = Ok b' /\ legal_board row column b'.
Proof.
  intros Hrow [Hr Hc]. destruct (cal_board_numbers_ok Hr) as (b' & E & Hr' & Hc'); auto.
  exists b'. split; auto. split; auto. intros p Hp. rewrite (Hc' p Hp).
  destruct (is_mine b p) eqn:Em; auto. right. f_equal. unfold adj_count. apply count_ext.
  intros q Hq. apply in_positions in Hq. unfold is_mine at 2. rewrite (Hc' q Hq).
  destruct (is_mine b q); [reflexivity|]. f_equal. symmetry. lia.
Qed.

(** What a successfully parsed video looks like. *)
Definition parsed (v : video) : Prop :=
  fits v /\ (1 <= v_height v)%nat /\ Forall event_known (v_events v) /\
  v_level v = level_of (v_height v) (v_width v) (v_mine_num v) /\
  length (v_checksum v) = 32%nat /\ bytes (v_checksum v).

Lemma csum_yields pan n : forall k acc, bytes acc ->
  yields pan (pfold (fun l (_ : nat) => get* x := get_u8 in pret (l ++ [x])) (seq k n) acc)
         (fun l => length l = (length acc + n)%nat /\ bytes l).
Proof.
  induction n; intros k acc Ha; cbn [seq pfold].
  - apply yields_ret. split; [lia|auto].
  - eapply yields_bind with (Q := fun l => length l = (length acc + 1)%nat /\ bytes l).
    + eapply yields_bind; [apply yields_u8|]. intros x Hx. apply yields_ret.
      split; [now rewrite app_length|]. apply Forall_app; split; auto.
    + intros l [Hl Hbl]. eapply yields_weaken; [apply IHn; auto|auto|].
      intros l' [? ?]. split; [lia|auto].
Qed.

Lemma parse_tail_yields (completed offical fair : bool) (h w : Z) : byte h -> byte w ->
  yields (h = 0)
    (get* mine_num := get_u16 in
  let height := Z.to_nat h in
  let width := Z.to_nat w in
  let level := level_of height width mine_num in
  get* pix := get_u8 in
  get* mode := get_u16 in
  get* bbbv := get_u16 in
  get* t := get_u24 in
  get* software := get_string in
  get* player := get_string in
  get* race := get_string in
  get* uniq := get_string in
  get* start := get_string in
  get* end_ := get_string in
  get* country := get_string in
  get* uuid := get_string in
  get* (b, _, _) := pfold unpack_step (grid height width) (mkboard height width 0, 0, 0) in
  get* b := plift (cal_board_numbers b) in
  get* (events, have_checksum) := get_events in
  get* csum := (if have_checksum : bool
                then pfold (fun l (_ : nat) => get* x := get_u8 in pret (l ++ [x])) (seq 0 32) []
                else pret (repeat 0 32)) in
  pret (Video completed offical fair height width mine_num pix mode bbbv t
              software player race uniq start end_ country uuid b level events csum)) parsed.
Proof.
  intros Hh Hw. cbv zeta.
  eapply yields_bind; [apply yields_u16|intros mine_num ?].
  eapply yields_bind; [apply yields_u8|intros pix ?].
  eapply yields_bind; [apply yields_u16|intros mode ?].
  eapply yields_bind; [apply yields_u16|intros bbbv ?].
  eapply yields_bind; [apply yields_u24|intros t ?].
  do 8 (eapply yields_bind; [apply yields_string|intros ? ?]).
  eapply yields_bind with (Q := fun st => mines01 (Z.to_nat h) (Z.to_nat w) (fst (fst st))).
  { apply pfold_yields.
    - intros s p Hs Hin. apply in_grid in Hin. apply unpack_step_yields; auto.
    - apply mines01_start. }
  intros [[b w'] k'] Hb. cbn [fst] in Hb.
  eapply yields_bind with (Q := fun b => (1 <= Z.to_nat h)%nat /\ legal_board (Z.to_nat h) (Z.to_nat w) b).
  { apply yields_lift. destruct (Z.eq_dec h 0) as [->|Hn].
    - destruct Hb as [[Hb1 _] _]. destruct b; [|discriminate]. reflexivity.
    - destruct (cal_board_numbers_legal (row := Z.to_nat h) (column := Z.to_nat w) (b := b))
        as (b' & E & Hl); auto; [unfold byte in Hh; lia|].
      rewrite E. simpl. split; auto. unfold byte in Hh; lia. }
  intros bb [Hrow Hl].
  eapply yields_bind; [apply yields_events|]. intros [ev hc] [Hev Hkn]. cbn [fst] in *.
  eapply yields_bind with (Q := fun l => length l = 32%nat /\ bytes l).
  { destruct hc.
    - apply (@csum_yields (h = 0) 32 0 []). constructor.
    - apply yields_ret. split; [reflexivity|]. apply Forall_forall. intros z Hz.
      apply repeat_spec in Hz. subst; unfold byte; lia. }
  intros cs [Hc1 Hc2]. apply yields_ret.
  unfold parsed, fits; cbn. unfold byte in *.
  split; [|auto].
  split; [lia|]. split; [lia|]. do 5 (split; [auto|]). split; [|auto].
  repeat constructor; auto.
Qed.

Lemma parse_yields raw : bytes raw ->
  outcome (nth_error raw 2 = Some 0) parsed (fst (parse_video raw 0%nat)).
Proof.
  intros Hb. unfold parse_video.
  destruct raw as [|a [|f [|h [|w rest]]]]; try reflexivity.
  assert (Hh : byte h /\ byte w).
  { inversion Hb as [|? ? _ Hb1]; subst. inversion Hb1 as [|? ? _ Hb2]; subst.
    inversion Hb2 as [|? ? ? Hb3]; subst. inversion Hb3; subst. auto. }
  destruct Hh as [Hh Hw].
  pose proof (@parse_tail_yields (negb (Z.land f 128 =? 0)) (negb (Z.land f 64 =? 0))
     (negb (Z.land f 32 =? 0)) h w Hh Hw (a :: f :: h :: w :: rest) 4%nat Hb) as H.
  cbn [nth_error].
  match type of H with outcome _ _ (fst (?X _ _)) =>
    change (outcome (Some h = Some 0) parsed (fst (X (a :: f :: h :: w :: rest) 4%nat))) end.
  destruct (fst _); simpl in *; auto. now subst.
Qed.

(** ** Locality: a successful read looks at no byte beyond its final offset. *)
Definition local {A} (p : P A) : Prop := forall raw post o a o',
  p raw o = (Ok a, o') -> (o <= length raw)%nat ->
  (o' <= length raw)%nat /\ p (raw ++ post) o = (Ok a, o').

Lemma local_ret {A} (a : A) : local (pret a).
Proof. intros raw post o x o' H Ho. inversion H; subst. split; auto. Qed.
Lemma local_lift {A} (r : R A) : local (plift r).
Proof. intros raw post o x o' H Ho. inversion H; subst. split; auto. Qed.
Lemma local_bind {A B} (p : P A) (k : A -> P B) : local p -> (forall a, local (k a)) -> local (pbind p k).
Proof.
  intros H1 H2 raw post o x o' H Ho. unfold pbind in *.
  destruct (p raw o) as [[a|e| |] o1] eqn:E; try discriminate.
  destruct (H1 raw post o a o1 E Ho) as [Ho1 E1]. rewrite E1. eapply H2; eauto.
Qed.
Lemma local_u8 : local get_u8.
Proof.
  intros raw post o x o' H Ho. unfold get_u8 in *. destruct (nth_error raw o) eqn:E; [|discriminate].
  inversion H; subst. assert (o < length raw)%nat by (apply nth_error_Some; congruence).
  rewrite nth_error_app1, E by lia. split; [lia|reflexivity].
Qed.
Lemma local_u16 : local get_u16.
Proof. repeat (apply local_bind; [apply local_u8|intro]). apply local_ret. Qed.
Lemma local_u24 : local get_u24.
Proof. repeat (apply local_bind; [apply local_u8|intro]). apply local_ret. Qed.

Lemma local_string_loop fuel : forall acc, local (string_loop fuel acc).
Proof.
  induction fuel; intros acc; cbn [string_loop]; [apply local_lift|].
  apply local_bind; [apply local_u8|]. intros c. destruct (c =? 0); [apply local_ret|apply IHfuel].
Qed.
Lemma string_loop_fuel fuel : forall acc raw o a o', string_loop fuel acc raw o = (Ok a, o') ->
  forall fuel', (fuel <= fuel')%nat -> string_loop fuel' acc raw o = (Ok a, o').
Proof.
  induction fuel; intros acc raw o a o' H fuel' Hf; [discriminate|].
  destruct fuel'; [lia|]. cbn [string_loop] in *. unfold pbind in *.
  destruct (get_char raw o) as [[c| | |] o1]; try discriminate.
  destruct (c =? 0); auto. eapply IHfuel; eauto. lia.
Qed.
Lemma local_string : local get_string.
Proof.
  intros raw post o x o' H Ho. unfold get_string in *.
  destruct (local_string_loop post H Ho) as [H1 H2]. split; auto.
  eapply string_loop_fuel; eauto. rewrite app_length. lia.
Qed.

Lemma local_event_loop fuel : forall acc, local (event_loop fuel acc).
Proof.
  induction fuel; intros acc; cbn [event_loop]; [apply local_lift|].
  apply local_bind; [apply local_u8|]. intros c. destruct (c =? 0); [apply local_ret|].
  destruct (c =? 255); [apply local_ret|].
  apply local_bind; [apply local_u24|]. intros t. apply local_bind; [apply local_u16|].
  intros x. apply local_bind; [apply local_u16|]. intros y. apply IHfuel.
Qed.
Lemma event_loop_fuel fuel : forall acc raw o a o', event_loop fuel acc raw o = (Ok a, o') ->
  forall fuel', (fuel <= fuel')%nat -> event_loop fuel' acc raw o = (Ok a, o').
Proof.
  induction fuel; intros acc raw o a o' H fuel' Hf; [discriminate|].
  destruct fuel'; [lia|]. cbn [event_loop] in *. unfold pbind in *.
  destruct (get_u8 raw o) as [[c| | |] o1]; try discriminate.
  destruct (c =? 0); auto. destruct (c =? 255); auto.
  destruct (get_u24 raw o1) as [[t| | |] o2]; try discriminate.
  destruct (get_u16 raw o2) as [[x| | |] o3]; try discriminate.
  destruct (get_u16 raw o3) as [[y| | |] o4]; try discriminate.
  eapply IHfuel; eauto. lia.
Qed.
Lemma local_events : local get_events.
Proof.
  intros raw post o x o' H Ho. unfold get_events in *.
  destruct (local_event_loop post H Ho) as [H1 H2]. split; auto.
  eapply event_loop_fuel; eauto. rewrite app_length. lia.
Qed.

Lemma local_pfold {S A} (f : S -> A -> P S) l : (forall s a, local (f s a)) ->
  forall s, local (pfold f l s).
Proof.
  intros H. induction l; intros s; cbn [pfold]; [apply local_ret|].
  apply local_bind; auto.
Qed.

Lemma local_unpack st p : local (unpack_step st p).
Proof.
  destruct st as [[b w] k]. unfold unpack_step. apply local_bind.
  - destruct (k - 1 <? 0); [|apply local_ret]. apply local_bind; [apply local_u8|].
    intros; apply local_ret.
  - intros [w' k']. destruct negb; [|apply local_ret].
    apply local_bind; [apply local_lift|intros; apply local_ret].
Qed.

Lemma local_parse : local parse_video.
Proof.
  unfold parse_video.
  repeat (apply local_bind;
    [first [apply local_u8|apply local_u16|apply local_u24|apply local_string|apply local_events
           |apply local_pfold; intros; apply local_unpack|apply local_lift]
    |intros ?; try match goal with x : (_ * _)%type |- _ => destruct x end;
      try match goal with x : (_ * _)%type |- _ => destruct x end]).
  apply local_bind; [|intros; apply local_ret].
  match goal with |- local (if ?b then _ else _) => destruct b end; [|apply local_ret].
  apply local_pfold. intros. apply local_bind; [apply local_u8|intros; apply local_ret].
Qed.

(** ** Bytes of a file *)
Lemma bits8_byte b0 b1 b2 b3 b4 b5 b6 b7 : byte (bits8 b0 b1 b2 b3 b4 b5 b6 b7).
Proof. unfold byte. destruct b0, b1, b2, b3, b4, b5, b6, b7; cbv; intuition discriminate. Qed.

Lemma pack_bytes l : bytes (pack l).
Proof.
  induction l using list8_ind.
  - destruct l as [|? l]; [constructor|].
    do 7 (destruct l as [|? l]; [apply Forall_cons; [apply bits8_byte|constructor]|]). simpl in H; lia.
  - cbn [pack]. constructor; [apply bits8_byte|exact IHl].
Qed.

Lemma be16_bytes z : u16 z -> bytes (be16 z).
Proof.
  intros H. unfold u16, byte in *. repeat constructor; try apply Z.mod_pos_bound; try lia.
Qed.
Lemma be24_bytes z : u24 z -> bytes (be24 z).
Proof.
  intros H. unfold u24, byte in *. repeat constructor; try apply Z.mod_pos_bound; try lia.
Qed.
Lemma bytes_app l1 l2 : bytes l1 -> bytes l2 -> bytes (l1 ++ l2).
Proof. intros; apply Forall_app; auto. Qed.

Lemma evf_file_bytes v cs : fits v -> match cs with Some c => bytes c | None => True end ->
  bytes (evf_file v cs).
Proof.
  intros (Hh & Hw & Hm & Hp & Hmo & Hb & Ht & Hs & He & Hl) Hc.
  assert (Hz : bytes [0]) by (repeat constructor; unfold byte; lia).
  assert (H1 : bytes (evf_header v)).
  { unfold evf_header. repeat apply bytes_app; auto using be16_bytes, be24_bytes.
    - repeat apply Forall_cons; try apply Forall_nil; try apply bits8_byte; unfold byte; lia.
    - constructor; [exact Hp|constructor]. }
  assert (H2 : bytes (evf_strings v)).
  { unfold evf_strings. apply Forall_flat_map. eapply Forall_impl; [|exact Hs].
    intros s Hss. apply bytes_app; auto. eapply Forall_impl; [|exact Hss]. unfold byte; simpl; lia. }
  assert (H3 : bytes (flat_map event_bytes (v_events v))).
  { apply Forall_flat_map. eapply Forall_impl; [|exact He]. intros e (G1 & G2 & G3).
    constructor; [unfold byte; destruct (ve_mouse e); simpl; lia|].
    repeat apply bytes_app; auto using be16_bytes, be24_bytes. }
  unfold evf_file, evf_body.
  apply bytes_app; [apply bytes_app; [exact H1|apply bytes_app; [exact H2|apply bytes_app]]|].
  - apply pack_bytes.
  - exact H3.
  - destruct cs; [apply Forall_cons; auto; unfold byte; lia|]. repeat constructor; unfold byte; lia.
Qed.

Lemma upd_nth_app_r {A} (l : list A) x y r : upd_nth (l ++ x :: r) (length l) y = l ++ y :: r.
Proof. induction l; simpl; f_equal; auto. Qed.

(** Overwriting the last bytes one by one. *)
Lemma overwrite_gen (c body : list Z) : forall n k (done old : list Z), length done = k -> (k + n = length c)%nat ->
  firstn k c = done -> length old = n ->
  foldM (fun raw i => let* x := vget c i in vset raw (length body + i) x) (seq k n) (body ++ done ++ old)
  = Ok (body ++ c).
Proof.
  induction n; intros k done old Hd Hk Hf Ho.
  - destruct old; [|discriminate]. cbn. rewrite app_nil_r. subst done.
    rewrite firstn_all2 by lia. reflexivity.
  - destruct old as [|o old]; [discriminate|]. cbn [seq foldM].
    rewrite (@vget_ok _ c k 0) by lia. cbn [bind].
    rewrite vset_ok by (rewrite !app_length; simpl; lia). cbn [bind].
    replace (body ++ done ++ o :: old) with ((body ++ done) ++ o :: old) by (rewrite <- app_assoc; auto).
    replace (length body + k)%nat with (length (body ++ done)) by (rewrite app_length; lia).
    rewrite upd_nth_app_r, <- app_assoc.
    replace (done ++ nth k c 0 :: old) with ((done ++ [nth k c 0]) ++ old) by (rewrite <- app_assoc; auto).
    apply IHn.
    + rewrite app_length. simpl. lia.
    + lia.
    + rewrite (firstn_S_nth 0) by lia. congruence.
    + simpl in Ho; lia.
Qed.

Lemma overwrite_ok (c c0 body : list Z) : length c0 = 32%nat -> length c = 32%nat ->
  foldM (fun raw i => let* x := vget c i in vset raw (length body + i) x) (seq 0 32) (body ++ c0)
  = Ok (body ++ c).
Proof. intros H0 Hc. apply (@overwrite_gen c body 32 0 [] c0); auto. Qed.
