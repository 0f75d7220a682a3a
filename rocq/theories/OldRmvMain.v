(** * OldRmvMain: the events of an rmv file, and the whole parser. *)
From Verif Require Import Base Spec BaseFacts LayMine LayMineProofs MineBoard Evf EvfSpec EvfProofs EvfSafe OldVideos OldSpec OldLib OldAvf OldAvfMain OldSafe OldAvfSafe OldRmv.
Open Scope Z_scope.

Section Events.
Variables (w h : nat).
(** the event loop with skips postponed to the next round *)
Definition ev_state : Type := list vev * bool * nat.
Definition rmv_ev (st : ev_state) : P (ev_state + list vev) :=
  let '(acc, first, n) := st in
  get* _ := skip n in
  get* c := get_u8 in
  if c =? 0 then pret (Datatypes.inl (acc, first, 4%nat))
  else if c <=? 7 then
    get* t := get_u32 in
    get* x := get_u16 in
    get* y := get_u16 in
    let t := Z.shiftr t 8 in
    let x := (x - 12) mod 65536 in
    let y := (y - 56) mod 65536 in
    let W := Z.of_nat w * 16 in
    let H := Z.of_nat h * 16 in
    let '(x, y) := if (W <=? x) || (H <=? y) then (W, H) else (x, y) in
    let acc := if first : bool then acc ++ [VEv e_lc t x y] else acc in
    pret (Datatypes.inl (acc ++ [VEv (rmv_kind c) t x y], false, 0%nat))
  else if c =? 8 then plift (Err InvalidParams)
  else if (c <=? 14) || ((18 <=? c) && (c <=? 27)) then pret (Datatypes.inl (acc, first, 2%nat))
  else if c <=? 17 then pret (inr acc)
  else plift (Err InvalidParams).

Definition same_end {S1 S2} (x : R (S1 + list vev) * nat) (y : R (S2 + list vev) * nat) : Prop :=
  (exists a o, x = (Ok (inr a), o) /\ y = (Ok (inr a), o)) \/ (exists e o, x = (Err e, o) /\ y = (Err e, o)) \/ (exists o, x = (Panic, o) /\ y = (Panic, o)) \/ (exists o, x = (OutOfFuel, o) /\ y = (OutOfFuel, o)).
Lemma postpone_step acc first n raw o :
  (exists acc' first' n' o', rmv_event w h (acc, first) raw (o + n)%nat = (Ok (Datatypes.inl (acc', first')), (o' + n')%nat) /\ rmv_ev (acc, first, n) raw o = (Ok (Datatypes.inl (acc', first', n')), o')) \/
  same_end (rmv_event w h (acc, first) raw (o + n)%nat) (rmv_ev (acc, first, n) raw o).
Proof.
  unfold rmv_event, rmv_ev, same_end. unfold pbind, skip. destruct (get_u8 raw (o + n)%nat) as [[c|e| |] o1]; cbn [fst]; try (right; eauto 8; fail).
  destruct (c =? 0); [left; unfold pret; eauto 8|]. destruct (c <=? 7).
  - destruct (get_u32 raw o1) as [[t|e| |] o2]; try (right; eauto 8; fail). destruct (get_u16 raw o2) as [[x|e| |] o3]; try (right; eauto 8; fail). destruct (get_u16 raw o3) as [[y|e| |] o4]; try (right; eauto 8; fail).
    left. destruct ((Z.of_nat w * 16 <=? (x - 12) mod 65536) || _); unfold pret; do 3 eexists; exists o4; rewrite Nat.add_0_r; auto.
  - destruct (c =? 8); [right; unfold plift; eauto 8|]. destruct ((c <=? 14) || _); [left; unfold pret; eauto 8|]. destruct (c <=? 17); right; unfold pret, plift; eauto 8.
Qed.
Definition ev_round (st : ev_state) (bs : list Z) (r : ev_state + list vev) : Prop :=
  let '(acc, first, n) := st in exists j b, bs = j ++ b /\ length j = n /\
  ((b = [0] /\ r = Datatypes.inl (acc, first, 4%nat)) \/
   (exists c k t pad x y X Y, In (c, k) rmv_codes /\ b = c :: be24 t ++ [pad] ++ be16 x ++ be16 y /\ u24 t /\ u16 x /\ u16 y /\ rmv_at w h x y = (X, Y) /\
      r = Datatypes.inl (acc ++ (if first then [VEv e_lc t X Y] else []) ++ [VEv k t X Y], false, 0%nat)) \/
   (exists c, (9 <= c <= 14 \/ 18 <= c <= 27) /\ b = [c] /\ r = Datatypes.inl (acc, first, 2%nat)) \/
   (exists c, 15 <= c <= 17 /\ b = [c] /\ r = inr acc)).
Lemma rmv_kind_codes c k : 1 <= c <= 7 -> (rmv_kind c = k <-> In (c, k) rmv_codes).
Proof.
  intros H. unfold rmv_kind. cbn. assert (D : c = 1 \/ c = 2 \/ c = 3 \/ c = 4 \/ c = 5 \/ c = 6 \/ c = 7) by lia.
  destruct D as [->|[->|[->|[->|[->|[->| ->]]]]]]; cbn [Z.eqb Pos.eqb]; (split; [intros <-; tauto|intros D; decompose [or] D; first [contradiction|congruence]]).
Qed.
Lemma code_range c k : In (c, k) rmv_codes -> 1 <= c <= 7.
Proof. cbn. intros D. decompose [or] D; try contradiction; match goal with X : _ = (c, k) |- _ => injection X as <- <- end; lia. Qed.
Lemma exact_time : exact (get* t := get_u32 in pret (Z.shiftr t 8)) (fun bs t => exists pad, bs = be24 t ++ [pad] /\ u24 t /\ byte pad).
Proof.
  eapply exact_iff; [eapply exact_bind; [apply exact_u32|]; intros; apply exact_ret|]. intros bs t Hb. split.
  - intros (? & ? & ? & -> & (a & b & c & d & -> & Ha & Hb' & Hc & Hd & ->) & -> & ->). exists d. cbn [app]. unfold be24, u24, byte in *. rewrite Z.shiftr_div_pow2 by lia. change (2 ^ 8) with 256.
    replace (a * 16777216 + b * 65536 + c * 256 + d) with ((a * 65536 + b * 256 + c) * 256 + d) by lia. rewrite Z.div_add_l, (Z.div_small d), Z.add_0_r by lia. split; [|lia].
    assert (E1 : (a * 65536 + b * 256 + c) / 65536 = a) by (symmetry; apply Z.div_unique with (b * 256 + c); lia).
    assert (E2 : (a * 65536 + b * 256 + c) / 256 = a * 256 + b) by (symmetry; apply Z.div_unique with c; lia).
    assert (E3 : (a * 256 + b) mod 256 = b) by (symmetry; apply Z.mod_unique with a; lia).
    assert (E4 : (a * 65536 + b * 256 + c) mod 256 = c) by (symmetry; apply Z.mod_unique with (a * 256 + b); lia).
    cbn [app]. now rewrite E1, E2, E3, E4.
  - intros (pad & -> & Ht & Hp). unfold be24 in *. unfold u24, byte in *. cbn [app] in *. rewrite !bytes_cons_iff in Hb. destruct Hb as (Ha & Hb2 & Hc & Hd & _). eexists. exists []. eexists. split; [now rewrite app_nil_r|]. split.
    + do 4 eexists. split; [reflexivity|]. split; [exact Ha|]. split; [exact Hb2|]. split; [exact Hc|]. split; [exact Hd|]. reflexivity.
    + split; auto. rewrite Z.shiftr_div_pow2 by lia. change (2 ^ 8) with 256.
      apply Z.div_unique with pad; [lia|]. pose proof (Z.div_mod t 256 ltac:(lia)) as D1. pose proof (Z.div_mod (t / 256) 256 ltac:(lia)) as D2. rewrite Z.div_div in D2 by lia. change (256 * 256) with 65536 in D2. lia.
Qed.
Definition ev_code (acc : list vev) (first : bool) (c : Z) (b : list Z) (r : ev_state + list vev) : Prop :=
  (c = 0 /\ b = [] /\ r = Datatypes.inl (acc, first, 4%nat)) \/
   (exists k t pad x y X Y, In (c, k) rmv_codes /\ b = be24 t ++ [pad] ++ be16 x ++ be16 y /\ u24 t /\ byte pad /\ u16 x /\ u16 y /\ rmv_at w h x y = (X, Y) /\
      r = Datatypes.inl (acc ++ (if first then [VEv e_lc t X Y] else []) ++ [VEv k t X Y], false, 0%nat)) \/
   ((9 <= c <= 14 \/ 18 <= c <= 27) /\ b = [] /\ r = Datatypes.inl (acc, first, 2%nat)) \/
   (15 <= c <= 17 /\ b = [] /\ r = inr acc).
Lemma rmv_at_code x y : (if (Z.of_nat w * 16 <=? (x - 12) mod 65536) || (Z.of_nat h * 16 <=? (y - 56) mod 65536) then (Z.of_nat w * 16, Z.of_nat h * 16) else ((x - 12) mod 65536, (y - 56) mod 65536)) = rmv_at w h x y.
Proof.
  unfold rmv_at. rewrite !(Z.mul_comm _ 16). destruct (Z.leb_spec (16 * Z.of_nat w) ((x - 12) mod 65536)), (Z.ltb_spec ((x - 12) mod 65536) (16 * Z.of_nat w)); try lia; auto.
  destruct (Z.leb_spec (16 * Z.of_nat h) ((y - 56) mod 65536)), (Z.ltb_spec ((y - 56) mod 65536) (16 * Z.of_nat h)); try lia; auto.
Qed.
Lemma exact_ev st : exact (rmv_ev st) (ev_round st).
Proof.
  destruct st as [[acc first] n]. unfold rmv_ev. eapply exact_iff.
  - apply exact_skip.
    + eapply exact_bind with (L2 := ev_code acc first); [apply exact_u8|]. intros ? c _ [_ Hc]. unfold byte in Hc.
      assert (ERR : (c = 8 \/ 28 <= c) -> exact (@plift (ev_state + list vev) (Err InvalidParams)) (ev_code acc first c)).
      { intros H raw o a o' _. split; [intros X; discriminate X|]. intros (b & _ & _ & [(-> & _)|[(k & t & pad & x & y & X & Y & Hk & _)|[(X & _)|(X & _)]]]); [lia|apply code_range in Hk; lia|lia|lia]. }
      destruct (Z.eqb_spec c 0) as [->|N0].
      { eapply exact_iff; [apply exact_ret|]. intros b r _. unfold ev_code. split; [intros [-> ->]; auto|]. intros [(_ & -> & ->)|[(k & t & pad & x & y & X & Y & Hk & _)|[(X & _)|(X & _)]]]; [auto|apply code_range in Hk; lia|lia|lia]. }
      destruct (Z.leb_spec c 7) as [H7|H7].
      { eapply exact_ext with (q := get* t := (get* t := get_u32 in pret (Z.shiftr t 8)) in get* x := get_u16 in get* y := get_u16 in
          pret (Datatypes.inl (let '(X, Y) := rmv_at w h x y in (acc ++ (if first then [VEv e_lc t X Y] else []) ++ [VEv (rmv_kind c) t X Y], false, 0%nat)))).
        - intros raw o. unfold pbind. destruct (get_u32 raw o) as [[t|e| |] o1]; auto. unfold pret at 2. destruct (get_u16 raw o1) as [[x|e| |] o2]; auto. destruct (get_u16 raw o2) as [[y|e| |] o3]; auto. cbn zeta. rewrite rmv_at_code.
          destruct (rmv_at w h x y) as [X Y]. destruct first; [now rewrite <- app_assoc|reflexivity].
        - eapply exact_iff; [eapply exact_bind; [apply exact_time|]; intros ? t _ _; eapply exact_bind; [apply exact_be16|]; intros ? x _ _; eapply exact_bind; [apply exact_be16|]; intros ? y _ _; apply exact_ret|].
          intros b r _. unfold ev_code. split.
          + intros (? & ? & t & -> & (pad & -> & Ht & Hp) & ? & ? & x & -> & [-> Hx] & ? & ? & y & -> & [-> Hy] & -> & ->). right. left. destruct (rmv_at w h x y) as [X Y] eqn:Ea. exists (rmv_kind c), t, pad, x, y, X, Y.
            split; [apply rmv_kind_codes; [lia|reflexivity]|]. split; [now rewrite app_nil_r, <- !app_assoc|]. auto 10.
          + intros [(X & _)|[(k & t & pad & x & y & X & Y & Hk & -> & Ht & Hp & Hx & Hy & Ea & ->)|[(X & _)|(X & _)]]]; [lia| |lia|lia].
            exists (be24 t ++ [pad]). eexists. exists t. split; [now rewrite <- app_assoc|]. split; [eauto|]. exists (be16 x). eexists. exists x. split; [reflexivity|]. split; auto. exists (be16 y), [], y. split; [now rewrite app_nil_r|]. split; auto. split; auto.
            rewrite Ea. apply rmv_kind_codes in Hk; [|lia]. now rewrite Hk. }
      destruct (Z.eqb_spec c 8) as [->|N8]; [apply ERR; auto|].
      destruct ((c <=? 14) || ((18 <=? c) && (c <=? 27))) eqn:E2.
      { eapply exact_iff; [apply exact_ret|]. intros b r _. unfold ev_code. split; [intros [-> ->]; right; right; left; split; auto; lia|]. intros [(X & _)|[(k & t & pad & x & y & X & Y & Hk & _)|[(_ & -> & ->)|(X & _)]]]; [lia|apply code_range in Hk; lia|auto|lia]. }
      destruct (Z.leb_spec c 17) as [H17|H17].
      { eapply exact_iff; [apply exact_ret|]. intros b r _. unfold ev_code. split; [intros [-> ->]; right; right; right; split; auto; lia|]. intros [(X & _)|[(k & t & pad & x & y & X & Y & Hk & _)|[(X & _)|(_ & -> & ->)]]]; [lia|apply code_range in Hk; lia|lia|auto]. }
      apply ERR. lia.
    + apply strict_bind. intros ? ? [-> _]. discriminate.
  - intros bs r Hb. unfold ev_round, ev_code. split.
    + intros (j & b & -> & Hj & ? & b2 & c & -> & [-> Hc] & H). exists j, ([c] ++ b2). split; auto. split; auto. destruct H as [(-> & -> & ->)|[(k & t & pad & x & y & X & Y & Hk & -> & H)|[(H & -> & ->)|(H & -> & ->)]]].
      * auto.
      * right. left. exists c, k, t, pad, x, y, X, Y. tauto.
      * right. right. left. eauto.
      * right. right. right. eauto.
    + intros (j & b & -> & Hj & H). exists j, b. split; auto. split; auto. apply bytes_app_iff in Hb as [_ Hb]. destruct H as [(-> & ->)|[(c & k & t & pad & x & y & X & Y & Hk & -> & H)|[(c & H & -> & ->)|(c & H & -> & ->)]]].
      * exists [0], [], 0. split; auto. split; [split; auto; unfold byte; lia|]. auto.
      * exists [c]. eexists. exists c. split; [reflexivity|]. split; [split; auto; apply bytes_cons_iff in Hb; tauto|]. right. left. exists k, t, pad, x, y, X, Y. repeat rewrite ?bytes_cons_iff, ?bytes_app_iff in Hb. tauto.
      * exists [c], [], c. split; auto. split; [split; auto; apply bytes_cons_iff in Hb; tauto|]. right. right. left. auto.
      * exists [c], [], c. split; auto. split; [split; auto; apply bytes_cons_iff in Hb; tauto|]. right. right. right. auto.
Qed.
Lemma strict_ev st : strict (ev_round st).
Proof.
  destruct st as [[acc first] n]. intros bs r (j & b & -> & _ & H) E. apply app_eq_nil in E as [_ E]. destruct H as [(-> & _)|[(c & k & t & pad & x & y & X & Y & Hk & -> & H)|[(c & H & -> & _)|(c & H & -> & _)]]]; discriminate E.
Qed.
Lemma postpone m : forall acc first n raw o, bytes raw -> (length raw < o + m)%nat -> (0 < m)%nat ->
  loop_fuel m (rmv_event w h) (acc, first) raw (o + n)%nat = loop_fuel m rmv_ev (acc, first, n) raw o.
Proof.
  induction m as [|m IH]; intros acc first n raw o Hb Hm H0; [lia|]. cbn [loop_fuel]. unfold pbind. destruct (postpone_step acc first n raw o) as [(acc' & first' & n' & o' & E1 & E2)|H].
  - rewrite E1, E2. assert (Hp : (o < o' <= length raw)%nat) by (apply (@progress _ _ rmv_ev ev_round exact_ev strict_ev _ _ _ _ _ Hb E2)). apply IH; auto; lia.
  - destruct H as [(a & o' & -> & ->)|[(e & o' & -> & ->)|[(o' & -> & ->)|(o' & -> & ->)]]]; reflexivity.
Qed.
Lemma ev_rounds_rmv st bs l : rounds ev_round st bs l <-> let '(acc, first, n) := st in exists j b es, bs = j ++ b /\ length j = n /\ rmv_events w h first b es /\ l = acc ++ es.
Proof.
  split.
  - induction 1 as [[[acc first] n] bs l H|[[acc first] n] b1 b2 s' l H HR IH]; cbn in H; destruct H as (j & b & -> & Hj & H).
    + destruct H as [(_ & X)|[(? & ? & ? & ? & ? & ? & ? & ? & _ & _ & _ & _ & _ & _ & X)|[(? & _ & _ & X)|(c & Hc & -> & X)]]]; try discriminate X. injection X as ->. exists j, [c], []. split; auto. split; auto. split; [now apply rmv_end|now rewrite app_nil_r].
    + destruct H as [(-> & E)|[(c & k & t & pad & x & y & X & Y & Hk & -> & Ht & Hx & Hy & Ea & E)|[(c & Hc & -> & E)|(c & Hc & -> & E)]]]; try discriminate E; injection E as ->; destruct IH as (j' & b' & es & -> & Hj' & Hes & ->).
      * exists j, ([0] ++ j' ++ b'), es. split; [now rewrite <- app_assoc|]. split; auto. split; auto. cbn [app]. now apply rmv_pad4.
      * destruct j'; [|discriminate Hj']. cbn [app]. exists j, (c :: be24 t ++ [pad] ++ be16 x ++ be16 y ++ b'), ((if first then [VEv e_lc t X Y] else []) ++ VEv k t X Y :: es). split; [rewrite <- app_assoc; reflexivity|]. split; auto. split; [now apply rmv_next with (x := x) (y := y)|now rewrite <- !app_assoc].
      * exists j, ([c] ++ j' ++ b'), es. split; [now rewrite <- app_assoc|]. split; auto. split; auto. cbn [app]. now apply rmv_pad2.
  - destruct st as [[acc first] n]. intros (j & b & es & -> & Hj & H & ->). revert acc n j Hj. induction H as [first c Hc|first j' r es Hj' H IH|first c j' r es Hc Hj' H IH|first c k t pad x y X Y r es Hk Ht Hx Hy Ea H IH]; intros acc n j Hj.
    + apply rounds_end. exists j, [c]. split; auto. split; auto. right. right. right. exists c. rewrite app_nil_r. auto.
    + change (0 :: j' ++ r) with ([0] ++ j' ++ r). rewrite app_assoc. eapply rounds_next; [|apply (IH acc 4%nat j' Hj')]. exists j, [0]. auto.
    + change (c :: j' ++ r) with ([c] ++ j' ++ r). rewrite app_assoc. eapply rounds_next; [|apply (IH acc 2%nat j' Hj')]. exists j, [c]. split; auto. split; auto. right. right. left. eauto.
    + replace (j ++ c :: be24 t ++ [pad] ++ be16 x ++ be16 y ++ r) with ((j ++ (c :: be24 t ++ [pad] ++ be16 x ++ be16 y)) ++ [] ++ r) by (rewrite <- app_assoc; reflexivity).
      replace (acc ++ (if first then [VEv e_lc t X Y] else []) ++ VEv k t X Y :: es) with ((acc ++ (if first then [VEv e_lc t X Y] else []) ++ [VEv k t X Y]) ++ es) by now rewrite <- !app_assoc.
      eapply rounds_next; [|apply (IH _ 0%nat []); reflexivity]. exists j. eexists. split; [reflexivity|]. split; auto. right. left. exists c, k, t, pad, x, y, X, Y. auto 10.
Qed.
Lemma ev_calm st : crash (rmv_ev st) never /\ det (rmv_ev st).
Proof.
  destruct st as [[acc first] n]. unfold rmv_ev. split.
  - apply calm_skip. apply calm_bind; [apply crash_u8|]. intros c. destruct (c =? 0); [apply crash_ret|]. destruct (c <=? 7).
    + apply calm_bind; [apply crash_u32|intros]. do 2 (apply calm_bind; [apply crash_u16|intros]). cbn zeta. rewrite rmv_at_code. destruct (rmv_at w h _ _) as [X Y]. apply crash_ret.
    + destruct (c =? 8); [apply calm_err|]. destruct ((c <=? 14) || _); [apply crash_ret|]. destruct (c <=? 17); [apply crash_ret|apply calm_err].
  - apply det_bind; [apply det_skip|intros]. apply det_bind; [apply det_u8|]. intros c. destruct (c =? 0); [apply det_ret|]. destruct (c <=? 7).
    + apply det_bind; [apply det_u32|intros]. do 2 (apply det_bind; [apply det_u16|intros]). cbn zeta. rewrite rmv_at_code. destruct (rmv_at w h _ _) as [X Y]. apply det_ret.
    + destruct (c =? 8); [apply det_lift|]. destruct ((c <=? 14) || _); [apply det_ret|]. destruct (c <=? 17); [apply det_ret|apply det_lift].
Qed.
(** the skip before the events and the events *)
Lemma events_ext n acc raw o : bytes raw -> (get* _ := skip n in loop (rmv_event w h) (acc, true)) raw o = loop rmv_ev (acc, true, n) raw o.
Proof. intros Hb. unfold pbind, skip, loop. apply postpone; auto; lia. Qed.
Lemma exact_events n acc : exact (get* _ := skip n in loop (rmv_event w h) (acc, true)) (fun bs l => exists j b es, bs = j ++ b /\ length j = n /\ rmv_events w h true b es /\ l = acc ++ es).
Proof.
  intros raw o a o' Hb. rewrite (events_ext n acc o Hb). revert raw o a o' Hb. change (exact (loop rmv_ev (acc, true, n)) (fun bs l => exists j b es, bs = j ++ b /\ length j = n /\ rmv_events w h true b es /\ l = acc ++ es)).
  eapply exact_iff; [apply (@exact_loop _ _ rmv_ev ev_round exact_ev strict_ev)|]. intros bs l _. apply ev_rounds_rmv.
Qed.
Lemma events_safe n acc : crash (get* _ := skip n in loop (rmv_event w h) (acc, true)) never.
Proof. apply calm_intro. intros raw o Hb. rewrite (events_ext n acc o Hb). apply calm_elim; auto. apply (@calm_loop _ _ rmv_ev ev_round exact_ev strict_ev). intros. apply ev_calm. Qed.
Lemma events_det n acc : det (get* _ := skip n in loop (rmv_event w h) (acc, true)).
Proof.
  intros raw post o Hb. pose proof Hb as Hb1. unfold bytes in Hb1. apply Forall_app in Hb1 as [Hb1 _]. rewrite (events_ext n acc o Hb), (events_ext n acc o Hb1).
  apply (@det_loop _ _ rmv_ev ev_round exact_ev strict_ev); auto. intros. apply ev_calm.
Qed.
End Events.

Definition rmv_result (v : oldv) (a : rmv_contents) : Prop :=
  o_software v = [86; 105; 101; 110; 110; 97; 115; 119; 101; 101; 112; 101; 114] /\ o_level v = r_level a /\ o_width v = r_width a /\ o_height v = r_height a /\
  o_mines v = Z.of_nat (length (r_mines a)) /\ o_mode v = r_mode a /\ o_nf v = r_nf a /\ o_bbbv v = r_bbbv a /\ o_rtime_ms v = r_rtime a /\ o_start v = r_start a /\ o_end v = [] /\
  o_player v = r_player a /\ o_country v = r_country a /\ o_events v = r_events a /\ board_of (r_height a) (r_width a) (r_mines a) (o_board v).

Lemma last_time (es : list vev) t : match rev es with [] => Panic | e :: _ => Ok (ve_ms e) end = Ok t <-> es <> [] /\ t = ve_ms (last es (VEv e_mv 0 0 0)).
Proof.
  destruct es as [|e es] using rev_ind; [cbn; split; [intros X; discriminate X|intros [X _]; contradiction]|]. rewrite rev_app_distr. cbn [rev app]. rewrite last_last. split; [intros X; injection X as <-; split; auto; intros E; destruct es; discriminate E|]. now intros [_ ->].
Qed.
Lemma last_crash (es : list vev) : match rev es with [] => @Panic Z | e :: _ => Ok (ve_ms e) end = Panic <-> es = [].
Proof. destruct es as [|e es] using rev_ind; [cbn; tauto|]. rewrite rev_app_distr. cbn [rev app]. split; [intros X; discriminate X|]. intros E; destruct es; discriminate E. Qed.
Lemma rmv_exact : exact parse_rmv (fun bs v => exists a, rmv_file bs a /\ rmv_result v a).
Proof.
  unfold parse_rmv. eapply exact_iff.
  - eapply exact_bind4; [apply exact_header|]. intros ? rs vs fs ps _ Hh.
    eapply exact_bind4; [apply exact_texts|]. intros ? bbbv start player country _ _.
    eapply exact_bind3; [apply exact_size|]. intros ? w h m _ _.
    eapply exact_bind; [apply exact_rmv_board|]. intros ? b _ _.
    eapply exact_bind; [apply exact_flags; destruct Hh as (? & ? & _ & _ & _ & _ & _ & Hh & _); unfold u16 in Hh; lia|]. intros ? pf _ _.
    eapply exact_bind4; [apply exact_props|]. intros ? nf mode level n _ _.
    eapply exact_bind; [apply exact_events|]. intros ? events _ _.
    eapply exact_bind; [apply exact_lift|]. intros ? rtime _ _.
    apply exact_ret.
  - intros bs v Hb. cbn beta. unfold rmv_file. split.
    + intros (head & ? & rs & vs & fs & ps & -> & Hh & strings & ? & bbbv & start & player & country & -> & Hs & ? & ? & w & h & m & -> & (j4 & -> & H4 & Hm) & ? & ? & b & -> & (H1 & mines & -> & Hlen & Hbd)
        & flags & ? & pf & -> & Hpf & ? & ? & nf & mode & level & n & -> & (j1 & f & l & -> & -> & Hl & -> & Hps & ->) & ? & ? & events & -> & (jp & bes & es & -> & Hjp & Hes & ->) & ? & ? & rtime & -> & [-> Hrt] & -> & ->).
      apply last_time in Hrt as [Hne ->].
      exists (Rmv (l + 3) mode (f =? 1) h w mines bbbv (ve_ms (last (pf ++ es) (VEv e_mv 0 0 0))) start player country (pf ++ es)). split.
      * exists rs, vs, fs, ps, head, strings, j4, m, flags, pf, j1, f, l, jp, bes, es. cbn [r_level r_mode r_nf r_height r_width r_mines r_bbbv r_rtime r_start r_player r_country r_events].
        split; [rewrite <- !app_assoc; cbn [app]; now rewrite app_nil_r|]. auto 20.
      * unfold rmv_result. cbn. do 4 (split; [reflexivity|]). split; [unfold u16 in Hm; lia|]. auto 20.
    + intros ([level mode nf h w mines bbbv rtime start player country events] & (rs & vs & fs & ps & head & strings & j4 & m & flags & pf & j1 & f & l & jp & bes & es & Hfile & Hh & Hs & H4 & Hm & Hlen & H1 & Hpf & Hnf & Hl & Hlev & Hps & Hjp & Hes & Hev & Hne & Hrt) & Hres).
      cbn [r_level r_mode r_nf r_height r_width r_mines r_bbbv r_rtime r_start r_player r_country r_events] in *. subst bs nf level events rtime.
      destruct v as [vs0 vl vw vh vm vmo vnf vb vr vst ven vp vc vbd vev]. unfold rmv_result in Hres. cbn [o_software o_level o_width o_height o_mines o_mode o_nf o_bbbv o_rtime_ms o_start o_end o_player o_country o_board o_events r_level r_mode r_nf r_height r_width r_mines r_bbbv r_rtime r_start r_player r_country r_events] in Hres.
      destruct Hres as (-> & -> & -> & -> & -> & -> & -> & -> & -> & -> & -> & -> & -> & -> & Hbd).
      exists head. eexists. exists rs, vs, fs, ps. split; [reflexivity|]. split; [exact Hh|].
      exists strings. eexists. exists bbbv, start, player, country. split; [reflexivity|]. split; [exact Hs|].
      exists (j4 ++ [Z.of_nat w; Z.of_nat h] ++ be16 m). eexists. exists w, h, m. split; [rewrite <- !app_assoc; reflexivity|]. split; [eauto|].
      exists (rmv_mines mines). eexists. exists vbd. split; [reflexivity|]. split; [split; auto; exists mines; auto|].
      exists flags. eexists. exists pf. split; [reflexivity|]. split; [exact Hpf|].
      exists [j1; f; mode; l]. eexists. exists (f =? 1), mode, (l + 3), (ps - 4). split; [reflexivity|]. split; [exists j1, f, l; auto 8|].
      exists (jp ++ bes), [], (pf ++ es). split; [now rewrite app_nil_r|]. split; [exists jp, bes, es; auto|].
      exists [], []. eexists. split; [reflexivity|]. split; [split; auto; apply last_time; split; [exact Hne|reflexivity]|]. split; auto. f_equal. unfold u16 in Hm. lia.
Qed.
Lemma rmv_det : det parse_rmv.
Proof.
  unfold parse_rmv. apply det_bind; [apply header_calm|intros [[[? ?] ?] ?]]. apply det_bind; [apply texts_det|intros [[[? ?] ?] ?]]. apply det_bind; [apply size_calm|intros [[? ?] ?]].
  apply det_bind; [apply (det_ext (rmv_board_ext _ _ _ _)), det_board|intros]. apply det_bind; [apply flags_calm|intros]. apply det_bind; [apply props_det|intros [[[? ?] ?] ?]]. apply det_bind; [apply events_det|intros]. apply det_bind; [apply det_lift|intros]. apply det_ret.
Qed.
Lemma board_exists row column mines : (1 <= row)%nat -> Forall (inb row column) mines -> exists b, board_of row column mines b.
Proof.
  intros H1 Hin. destruct (rmv_unpairs Hin) as (pl & _ & _ & _ & M).
  assert (Hl : Forall (fun '(c, d) => inb row column (rmv_place c d)) pl). { rewrite Forall_forall in *. intros [c d] Hp. apply Hin. rewrite <- M. apply in_map_iff. exists (c, d). auto. }
  assert (Hr : rect row column (marked_board rmv_place (mkboard row column 0) pl)) by (apply marked_rect, rect_mkboard).
  assert (H01 : forall p, inb row column p -> cell (marked_board rmv_place (mkboard row column 0) pl) p = 0 \/ cell (marked_board rmv_place (mkboard row column 0) pl) p = -1).
  { intros p Hp. rewrite (@marked_cell row column rmv_place pl (mkboard row column 0) p (rect_mkboard _ _ _) Hl). destruct (existsb _ _); auto. left. now apply cell_mkboard. }
  destruct (@cal_board_numbers_ok row column _ Hr H1 H01) as (b' & E & _). apply (@numbers_exact row column rmv_place pl b' Hl) in E as [_ E]. rewrite M in E. eauto.
Qed.
Lemma rmv_crashes : crash parse_rmv rmv_crash.
Proof.
  unfold parse_rmv. eapply crash_iff.
  - eapply crash_bind4; [apply exact_header|apply header_calm|]. intros ? rs vs fs ps _ Hh.
    eapply crash_bind4; [apply exact_texts|apply texts_crash|]. intros ? bbbv start player country _ _.
    eapply crash_seq3; [apply exact_size|apply size_calm|]. intros ? w h m _ _.
    eapply crash_bind; [apply exact_rmv_board|apply rmv_board_crash|]. intros ? b _ _.
    eapply crash_seq; [apply exact_flags; destruct Hh as (? & ? & _ & _ & _ & _ & _ & Hh & _); unfold u16 in Hh; lia|apply flags_calm|]. intros ? pf _ _.
    eapply crash_bind4; [apply exact_props|apply props_crash|]. intros ? nf mode level n _ _.
    eapply crash_seq; [apply exact_events|apply events_safe|]. intros ? events _ _.
    eapply crash_bind; [apply exact_lift|apply crash_lift; destruct (rev events); discriminate|]. intros ? rtime _ _.
    apply crash_ret.
  - intros bs Hb. cbn beta. unfold rmv_crash. split.
    + intros [[]|(head & ? & rs & vs & fs & ps & -> & Hh & [(H3 & ->)|(strings & ? & bbbv & start & player & country & -> & Hs & ? & ? & w & h & m & -> & (j4 & -> & H4 & Hm) & [(Hh0 & Hm0 & ->)|(? & ? & b & -> & (H1 & mines & -> & Hlen & Hbd)
        & flags & ? & pf & -> & Hpf & [(j1 & f & mo & l & -> & Hc)|(? & ? & nf & mode & level & n & -> & (j1 & f & l & -> & -> & Hl & -> & Hps & ->) & ? & ? & events & -> & (jp & bes & es & -> & Hjp & Hes & ->) & [(-> & E)|(? & ? & ? & _ & _ & [])])])])])];
      exists rs, vs, fs, ps, head; (split; [exact Hh|]).
      * left. rewrite app_nil_r. auto.
      * right. exists strings, bbbv, start, player, country, j4, (Z.of_nat w), (Z.of_nat h), m. do 3 (split; [assumption|]). left. unfold u16 in Hm. split; [lia|]. split; [lia|]. now rewrite app_nil_r.
      * right. exists strings, bbbv, start, player, country, j4, (Z.of_nat w), (Z.of_nat h), m. do 3 (split; [assumption|]). right. exists mines, flags, pf, j1, f, mo, l. rewrite !Nat2Z.id.
        split; [lia|]. split; [exact Hlen|]. split; [apply Hbd|]. split; [exact Hpf|]. cbn zeta. destruct Hc as [Hc|Hc]; [left|right; left]; (split; [exact Hc|]); rewrite <- !app_assoc; reflexivity.
      * right. exists strings, bbbv, start, player, country, j4, (Z.of_nat w), (Z.of_nat h), m. do 3 (split; [assumption|]). right. exists mines, flags, pf, j1, f, mode, l. rewrite !Nat2Z.id.
        split; [lia|]. split; [exact Hlen|]. split; [apply Hbd|]. split; [exact Hpf|]. cbn zeta. right. right. apply last_crash in E. apply app_eq_nil in E as [-> ->]. split; [exact Hl|]. split; [exact Hps|]. split; [reflexivity|].
        exists jp, bes. split; [exact Hjp|]. split; [exact Hes|]. rewrite app_nil_r. rewrite <- !app_assoc. reflexivity.
    + intros (rs & vs & fs & ps & head & Hh & H). right. exists head. destruct H as [(H3 & ->)|(strings & bbbv & start & player & country & j4 & w & h & m & Hs & H4 & Hm & H)].
      { exists [], rs, vs, fs, ps. split; [now rewrite app_nil_r|]. auto. }
      assert (Hfront : exists rest, bs = head ++ strings ++ j4 ++ [w; h] ++ be16 m ++ rest).
      { destruct H as [(_ & _ & ->)|(mines & flags & pf & j1 & f & mode & l & _ & _ & _ & _ & H)]; [exists []; now rewrite app_nil_r|]. cbn zeta in H. destruct H as [(_ & ->)|[(_ & ->)|(_ & _ & _ & jp & bes & _ & _ & ->)]]; rewrite <- ?app_assoc; eauto. }
      assert (Hwh : 0 <= w /\ 0 <= h). { destruct Hfront as [rest ->]. repeat rewrite ?bytes_cons_iff, ?bytes_app_iff in Hb. unfold byte in Hb. cbn [app] in Hb. repeat rewrite ?bytes_cons_iff in Hb. unfold byte in Hb. tauto. }
      destruct Hwh as [Hw Hh']. clear Hfront. exists (skipn (length head) bs).
      exists rs, vs, fs, ps. assert (Hsplit : forall rest, bs = head ++ rest -> skipn (length head) bs = rest) by (intros rest ->; rewrite skipn_app, skipn_all, Nat.sub_diag; reflexivity).
      destruct H as [(-> & -> & Hbs)|(mines & flags & pf & j1 & f & mode & l & H1 & Hlen & Hin & Hpf & H)].
      * rewrite (Hsplit _ Hbs). split; [exact Hbs|]. split; [exact Hh|]. right. exists strings. eexists. exists bbbv, start, player, country. split; [reflexivity|]. split; [exact Hs|].
        exists (j4 ++ [w; 0] ++ be16 0), [], (Z.to_nat w), 0%nat, 0. split; [now rewrite app_nil_r|]. split; [exists j4; rewrite Z2Nat.id by lia; auto|]. left. auto.
      * assert (E : exists rest, bs = head ++ strings ++ (j4 ++ [w; h] ++ be16 m) ++ rmv_mines mines ++ flags ++ [j1; f; mode; l] ++ rest /\ ((253 <= l \/ ps < 4) /\ rest = [] \/ l < 253 /\ 4 <= ps /\ pf = [] /\ exists jp bes, length jp = Z.to_nat (ps - 4) /\ rmv_events (Z.to_nat w) (Z.to_nat h) true bes [] /\ rest = jp ++ bes)).
        { cbn zeta in H. destruct H as [(Hc & ->)|[(Hc & ->)|(Hl & Hps & Hp & jp & bes & Hjp & Hes & ->)]]; [exists []|exists []|exists (jp ++ bes)]; (split; [rewrite <- ?app_assoc; rewrite ?app_nil_r; reflexivity|]); [left; auto|left; auto|right]. eauto 10. }
        destruct E as (rest & Hbs & H'). rewrite (Hsplit _ Hbs). split; [exact Hbs|]. split; [exact Hh|]. right. exists strings. eexists. exists bbbv, start, player, country. split; [reflexivity|]. split; [exact Hs|].
        exists (j4 ++ [w; h] ++ be16 m). eexists. exists (Z.to_nat w), (Z.to_nat h), m. split; [reflexivity|]. split; [exists j4; rewrite !Z2Nat.id by lia; auto|]. right.
        assert (HB : exists b, board_of (Z.to_nat h) (Z.to_nat w) mines b).
        { apply board_exists; [lia|exact Hin]. }
        destruct HB as [b HB]. exists (rmv_mines mines). eexists. exists b. split; [reflexivity|]. split; [split; [lia|]; exists mines; auto|].
        exists flags. eexists. exists pf. split; [reflexivity|]. split; [exact Hpf|]. destruct H' as [[Hc ->]|(Hl & Hps & -> & jp & bes & Hjp & Hes & ->)].
        -- left. rewrite app_nil_r. eauto 8.
        -- right. exists [j1; f; mode; l]. eexists. exists (f =? 1), mode, (l + 3), (ps - 4). split; [reflexivity|]. split; [exists j1, f, l; auto 8|].
           exists (jp ++ bes), [], []. split; [now rewrite app_nil_r|]. split; [exists jp, bes, []; auto|]. left. auto.
Qed.
