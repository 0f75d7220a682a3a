(** * OldMvf: the mvf parser accepts exactly the format; where it crashes; files cut short. *)
From Verif Require Import Base Spec BaseFacts LayMine LayMineProofs MineBoard Evf EvfSpec EvfProofs EvfSafe OldVideos OldSpec OldLib OldAvf OldAvfMain OldSafe OldAvfSafe OldRmv OldRmvMain OldMvfKey.
Open Scope Z_scope.
#[local] Opaque key_order.

Lemma exact_be24 : exact get_u24 (fun bs x => bs = be24 x /\ u24 x).
Proof.
  eapply exact_iff; [apply exact_u24|]. intros bs x Hb. unfold be24, u24. split.
  - intros (a & b & c & -> & Ha & Hb' & Hc & ->). unfold byte in *. split; [|lia]. f_equal; [|f_equal; [|f_equal]].
    + apply Z.div_unique with (b * 256 + c); lia.
    + replace ((a * 65536 + b * 256 + c) / 256) with (a * 256 + b) by (apply Z.div_unique with c; lia). apply Z.mod_unique with a; lia.
    + apply Z.mod_unique with (a * 256 + b); lia.
  - intros [-> Hx]. exists (x / 65536), (x / 256 mod 256), (x mod 256). split; auto. inversion Hb as [|? ? Ha Hb1]; subst. inversion Hb1 as [|? ? Hb' Hb2]; subst. inversion Hb2 as [|? ? Hc _]; subst. split; auto. split; auto. split; auto.
    pose proof (Z.div_mod x 256). pose proof (Z.div_mod (x / 256) 256). rewrite Z.div_div in * by lia. change (256 * 256) with 65536 in *. lia.
Qed.

(** ** head, size, player *)
Lemma exact_head : exact mvf_head (fun bs r => let '(level, mode, rtime, bbbv) := r in exists date l m sec hs,
  bs = date ++ [l; m] ++ be16 sec ++ [hs] ++ be16 bbbv /\ length date = 7%nat /\ l < 254 /\ level = l + 2 /\ mode = mvf_mode m /\ u16 sec /\ rtime = sec * 1000 + hs * 10 /\ u16 bbbv).
Proof.
  unfold mvf_head. eapply exact_iff.
  - eapply exact_bind; [apply exact_take|]. intros ? date _ _. eapply exact_bind; [apply exact_u8|]. intros ? l _ _. eapply exact_bind; [apply exact_lift|]. intros ? level _ _.
    eapply exact_bind; [apply exact_u8|]. intros ? m _ _. cbn zeta. eapply exact_bind; [apply exact_be16|]. intros ? sec _ _. eapply exact_bind; [apply exact_u8|]. intros ? hs _ _. eapply exact_bind; [apply exact_be16|]. intros ? bbbv _ _. apply exact_ret.
  - intros bs [[[level mode] rtime] bbbv] Hb. cbn beta iota. split.
    + intros (? & ? & ? & -> & [Hd ->] & ? & ? & l & -> & [-> Hl] & ? & ? & ? & -> & [-> El] & ? & ? & m & -> & [-> Hm] & ? & ? & sec & -> & [-> Hs] & ? & ? & hs & -> & [-> Hh] & ? & ? & b3 & -> & [-> H3] & -> & E).
      injection E as -> -> -> ->. destruct (Z.ltb_spec (l + 2) 256) as [L|L]; [|discriminate El]. injection El as <-. eexists _, l, m, sec, hs. split; [cbn [app]; rewrite app_nil_r; reflexivity|]. split; [exact Hd|]. split; [lia|]. auto 10.
    + intros (date & l & m & sec & hs & -> & Hd & Hl & -> & -> & Hs & -> & H3). repeat rewrite ?bytes_app_iff, ?bytes_cons_iff in Hb. destruct Hb as (Hb1 & (Hbl & Hbm & _) & Hbs & (Hbh & _) & Hbb).
      exists date. eexists. exists date. split; [reflexivity|]. split; [auto|]. exists [l]. eexists. exists l. split; [reflexivity|]. split; [auto|]. exists []. eexists. exists (l + 2). split; [reflexivity|].
      split; [split; auto; destruct (Z.ltb_spec (l + 2) 256) as [L|L]; [reflexivity|lia]|]. exists [m]. eexists. exists m. split; [reflexivity|]. split; [auto|]. exists (be16 sec). eexists. exists sec. split; [reflexivity|]. split; [auto|].
      exists [hs]. eexists. exists hs. split; [reflexivity|]. split; [auto|]. exists (be16 bbbv), [], bbbv. split; [now rewrite app_nil_r|]. split; [auto|]. auto.
Qed.
Lemma head_crash : crash mvf_head (fun bs => exists date l, bs = date ++ [l] /\ length date = 7%nat /\ 254 <= l).
Proof.
  unfold mvf_head. eapply crash_iff.
  - eapply crash_seq; [apply exact_take|apply crash_take|]. intros ? date _ _. eapply crash_seq; [apply exact_u8|apply crash_u8|]. intros ? l _ _. eapply crash_bind; [apply exact_lift|apply crash_lift; destruct (l + 2 <? 256); discriminate|]. intros ? level _ _.
    apply calm_bind; [apply crash_u8|intros m]. cbn zeta. apply calm_bind; [apply crash_u16|intros sec]. apply calm_bind; [apply crash_u8|intros]. apply calm_bind; [apply crash_u16|intros]. apply crash_ret.
  - intros bs Hb. cbn beta. split.
    + intros (? & ? & ? & -> & [Hd ->] & ? & ? & l & -> & [-> Hl] & [(-> & E)|(? & ? & ? & _ & _ & [])]). destruct (Z.ltb_spec (l + 2) 256) as [L|L]; [discriminate E|]. eexists _, l. split; [reflexivity|]. split; [exact Hd|lia].
    + intros (date & l & -> & Hd & Hl). repeat rewrite ?bytes_app_iff, ?bytes_cons_iff in Hb. destruct Hb as (Hb1 & Hbl & _). exists date, [l], date. split; auto. split; auto. exists [l], [], l. split; auto. split; auto. left. split; auto. destruct (Z.ltb_spec (l + 2) 256) as [L|L]; [lia|reflexivity].
Qed.
Lemma head_det : det mvf_head.
Proof.
  unfold mvf_head. apply det_bind; [apply det_take|intros]. apply det_bind; [apply det_u8|intros]. apply det_bind; [apply det_lift|intros]. apply det_bind; [apply det_u8|intros]. cbn zeta. apply det_bind; [apply det_u16|intros]. apply det_bind; [apply det_u8|intros]. apply det_bind; [apply det_u16|intros]. apply det_ret.
Qed.
Lemma exact_msize : exact mvf_size (fun bs r => let '(w, h, m) := r in exists j, bs = j ++ [Z.of_nat w; Z.of_nat h] ++ be16 m /\ length j = 9%nat /\ u16 m).
Proof.
  unfold mvf_size. assert (E0 : exact (get* width := get_u8 in get* height := get_u8 in get* mine_num := get_u16 in pret (Z.to_nat width, Z.to_nat height, mine_num)) (fun bs r => let '(w, h, m) := r in bs = [Z.of_nat w; Z.of_nat h] ++ be16 m /\ u16 m)).
  { eapply exact_iff.
    - eapply exact_bind; [apply exact_u8|]. intros ? w _ _. eapply exact_bind; [apply exact_u8|]. intros ? h _ _. eapply exact_bind; [apply exact_be16|]. intros ? m _ _. apply exact_ret.
    - intros bs [[w h] m] Hb. cbn beta iota. split.
      + intros (? & ? & w' & -> & [-> Hw] & ? & ? & h' & -> & [-> Hh] & ? & ? & m' & -> & [-> Hm] & -> & E). injection E as -> -> ->. unfold byte in *. rewrite !Z2Nat.id by lia. rewrite app_nil_r. auto.
      + intros [-> Hm]. repeat rewrite ?bytes_app_iff, ?bytes_cons_iff in Hb. destruct Hb as ((Hw & Hh & _) & _). exists [Z.of_nat w]. eexists. exists (Z.of_nat w). split; [reflexivity|]. split; auto. exists [Z.of_nat h]. eexists. exists (Z.of_nat h). split; [reflexivity|]. split; auto.
        exists (be16 m), [], m. split; [now rewrite app_nil_r|]. split; auto. rewrite !Nat2Z.id. auto. }
  eapply exact_iff.
  - apply exact_skip; [apply exact_skip; [exact E0|]|].
    + intros bs [[w h] m] [-> _] X. discriminate X.
    + intros bs [[w h] m] (j & b & -> & Hj & -> & _) X. destruct j; discriminate X.
  - intros bs [[w h] m] _. cbn beta iota. split.
    + intros (j & b & -> & Hj & j1 & b1 & -> & Hj1 & -> & Hm). exists (j ++ j1). split; [now rewrite <- app_assoc|]. split; auto. rewrite app_length. lia.
    + intros (j & -> & Hj & Hm). exists (firstn 8 j), (skipn 8 j ++ [Z.of_nat w; Z.of_nat h] ++ be16 m). split; [now rewrite (app_assoc (firstn 8 j)), firstn_skipn|]. split; [rewrite firstn_length; lia|]. exists (skipn 8 j), ([Z.of_nat w; Z.of_nat h] ++ be16 m). split; auto. split; auto. rewrite skipn_length. lia.
Qed.
Lemma msize_calm : crash mvf_size never /\ det mvf_size.
Proof.
  split; unfold mvf_size.
  - apply calm_skip, calm_skip. apply calm_bind; [apply crash_u8|intros]. apply calm_bind; [apply crash_u8|intros]. apply calm_bind; [apply crash_u16|intros]. apply crash_ret.
  - apply det_bind; [apply det_skip|intros]. apply det_bind; [apply det_skip|intros]. apply det_bind; [apply det_u8|intros]. apply det_bind; [apply det_u8|intros]. apply det_bind; [apply det_u16|intros]. apply det_ret.
Qed.
Lemma exact_player : exact mvf_player (fun bs s => bs = counted s).
Proof.
  unfold mvf_player. eapply exact_iff; [eapply exact_bind; [apply exact_u8|]; intros; apply exact_take|]. intros bs s Hb. unfold counted. split.
  - intros (? & ? & l & -> & [-> Hl] & Hlen & ->). cbn [app]. f_equal. unfold byte in Hl. lia.
  - intros ->. apply bytes_cons_iff in Hb as [Hl _]. exists [Z.of_nat (length s)], s, (Z.of_nat (length s)). split; auto. split; auto. rewrite Nat2Z.id. auto.
Qed.
Lemma player_calm : crash mvf_player never /\ det mvf_player.
Proof. split; unfold mvf_player; [apply calm_bind; [apply crash_u8|intros; apply crash_take]|apply det_bind; [apply det_u8|intros; apply det_take]]. Qed.

(** ** the board *)
Definition mvf_put (b : board) (c d : Z) : R board := if (d =? 0) || (c =? 0) then Panic else set b (Z.to_nat (d - 1)) (Z.to_nat (c - 1)) (-1).
Definition mvf_good (w h : nat) (c d : Z) : bool := (1 <=? c) && (c <=? Z.of_nat w) && (1 <=? d) && (d <=? Z.of_nat h).
Definition mvf_place (c d : Z) : pos := (Z.to_nat (d - 1), Z.to_nat (c - 1)).
Lemma set_panic {A} row column (b : list (list A)) i j v : rect row column b -> ~ ((i < row)%nat /\ (j < column)%nat) -> set b i j v = Panic.
Proof.
  intros [L F] H. unfold set. destruct (nth_error b i) eqn:E; [|reflexivity]. assert (length l = column). { rewrite Forall_forall in F. apply F. eapply nth_error_In. exact E. } assert (i < length b)%nat by (apply nth_error_Some; congruence).
  destruct (Nat.ltb_spec j (length l)); [|reflexivity]. lia.
Qed.
Lemma mvf_put_ok row column b c d : rect row column b -> byte c -> byte d ->
  if mvf_good column row c d then inb row column (mvf_place c d) /\ mvf_put b c d = Ok (upd b (mvf_place c d) (-1)) else mvf_put b c d = Panic.
Proof.
  intros Hr Hc Hd. unfold byte in *. unfold mvf_good, mvf_put. destruct ((d =? 0) || (c =? 0)) eqn:E0.
  - replace ((1 <=? c) && (c <=? Z.of_nat column) && (1 <=? d) && (d <=? Z.of_nat row)) with false by lia. reflexivity.
  - destruct ((1 <=? c) && (c <=? Z.of_nat column) && (1 <=? d) && (d <=? Z.of_nat row)) eqn:E.
    + assert (Hi : inb row column (mvf_place c d)) by (split; cbn; lia). split; auto. apply (set_ok _ Hr Hi).
    + apply (set_panic _ Hr). lia.
Qed.
Lemma mvf_board_ext n b : forall raw o, (get* b := pfold mvf_mine (seq 0 n) b in plift (cal_board_numbers b)) raw o = (get* b := pfold (mine_step mvf_put) (seq 0 n) b in plift (cal_board_numbers b)) raw o.
Proof. reflexivity. Qed.
Lemma mvf_pairs l w h : bytes (pairs_of l) -> Forall (fun '(c, d) => mvf_good w h c d = true) l ->
  pairs_of l = mvf_mines (map (fun '(c, d) => mvf_place c d) l) /\ Forall (inb h w) (map (fun '(c, d) => mvf_place c d) l).
Proof.
  induction l as [|[c d] l IH]; intros Hb Hg; [split; [reflexivity|constructor]|]. inversion Hg as [|? ? G Hg']; subst. inversion Hb as [|? ? Hc Hb1]; subst. inversion Hb1 as [|? ? Hd Hb2]; subst. destruct (IH Hb2 Hg') as [E F].
  unfold byte, mvf_good in *. split.
  - cbn [map]. unfold mvf_mines, pairs_of in *. cbn [flat_map]. rewrite E. cbn [fst snd mvf_place app]. f_equal; [lia|f_equal; lia].
  - cbn [map]. constructor; auto. split; cbn; lia.
Qed.
Lemma mvf_unpairs w h mines : Forall (inb h w) mines ->
  exists l, mvf_mines mines = pairs_of l /\ length l = length mines /\ Forall (fun '(c, d) => mvf_good w h c d = true) l /\ map (fun '(c, d) => mvf_place c d) l = mines.
Proof.
  induction mines as [|[i j] mines IH]; intros H; [exists []; auto|]. inversion H as [|? ? [H1 H2] H3]; subst. cbn [fst snd] in *. destruct (IH H3) as (l & E & L & F & M).
  exists ((Z.of_nat j + 1, Z.of_nat i + 1) :: l). split; [unfold mvf_mines, pairs_of in *; cbn [flat_map]; now rewrite E|]. split; [cbn; congruence|]. split.
  - constructor; auto. unfold mvf_good. lia.
  - cbn [map]. rewrite M. f_equal. unfold mvf_place. f_equal; lia.
Qed.
Lemma exact_mvf_board w h n : exact (get* b := pfold mvf_mine (seq 0 n) (mkboard h w 0) in plift (cal_board_numbers b))
  (fun bs b => (1 <= h)%nat /\ exists mines, bs = mvf_mines mines /\ length mines = n /\ board_of h w mines b).
Proof.
  eapply exact_ext; [apply mvf_board_ext|]. eapply exact_iff; [apply (@exact_board h w mvf_place (mvf_good w h) mvf_put Panic); [apply mvf_put_ok|discriminate]|]. intros bs b Hb. split.
  - intros (H1 & l & -> & L & HF & HB). split; auto. destruct (mvf_pairs Hb HF) as [E _]. exists (map (fun '(c, d) => mvf_place c d) l). split; auto. split; [now rewrite map_length|auto].
  - intros (H1 & mines & -> & L & HB). split; auto. pose proof HB as (_ & Hin & _). destruct (mvf_unpairs Hin) as (l & E & L2 & F & M). exists l. split; auto. split; [congruence|]. split; auto. now rewrite M.
Qed.
Lemma mvf_board_crash w h n : crash (get* b := pfold mvf_mine (seq 0 n) (mkboard h w 0) in plift (cal_board_numbers b)) (fun bs => h = 0%nat /\ n = 0%nat /\ bs = [] \/
  exists ok x y, Forall (inb h w) ok /\ (length ok < n)%nat /\ ~ (1 <= x <= Z.of_nat w /\ 1 <= y <= Z.of_nat h) /\ bs = mvf_mines ok ++ [x; y]).
Proof.
  eapply crash_ext; [apply mvf_board_ext|]. eapply crash_iff; [apply (@crash_board h w mvf_place (mvf_good w h) mvf_put Panic); [apply mvf_put_ok|discriminate|discriminate]|]. intros bs Hb. split.
  - intros [(_ & l & c & d & -> & Hl & HF & Hg)|H]; [right|left; exact H]. apply bytes_app_iff in Hb as [Hb _]. destruct (mvf_pairs Hb HF) as [E F]. exists (map (fun '(c, d) => mvf_place c d) l), c, d. split; auto. split; [now rewrite map_length|]. split; [unfold mvf_good in Hg; lia|]. now rewrite E.
  - intros [H|(ok & x & y & Hin & Hl & Hg & ->)]; [right; exact H|left]. split; auto. destruct (mvf_unpairs Hin) as (l & E & L2 & F & M). exists l, x, y. split; [now rewrite E|]. split; [lia|]. split; auto. unfold mvf_good. lia.
Qed.

(** ** the records *)
Definition run (byte : list nat) (bit : list Z) (k n : nat) (st : list vev * mstate * Z * Z) : P (list vev) :=
  get* (events, _, _, _) := pfold (mvf_event byte bit) (seq k n) st in pret events.
Lemma run_S byte bit k n st raw o : run byte bit k (S n) st raw o = (get* st1 := mvf_event byte bit st k in run byte bit (S k) n st1) raw o.
Proof. unfold run. cbn [seq pfold]. unfold pbind. destruct (mvf_event byte bit st k raw o) as [[st1|e| |] o1]; reflexivity. Qed.
Lemma event_calm byte bit st k : det (mvf_event byte bit st k).
Proof. destruct st as [[[acc p] px] py]. unfold mvf_event. apply det_bind; [apply det_take|intros]. apply det_bind; [apply det_lift|intros]. apply det_ret. Qed.
Lemma run_det byte bit n k st : det (run byte bit k n st).
Proof. unfold run. apply det_bind; [apply det_pfold; intros; apply event_calm|intros [[[? ?] ?] ?]]. apply det_ret. Qed.
Section Records.
Variable s : list Z.
Hypothesis K : is_key s.
Notation kbyte := (map (fun j => (j / 8)%nat) (key_order s)).
Notation kbit := (map (fun j => Z.shiftl 1 (Z.of_nat (j mod 8))) (key_order s)).
Lemma decode_exact e : bytes e -> length e = 5%nat -> exact (plift (decode kbyte kbit e)) (fun bs st => bs = [] /\ st = to_state (mvf_decode s e)) /\ crash (plift (decode kbyte kbit e)) never.
Proof. intros He L. rewrite (decode_ok K He L). split; [apply exact_ret|apply crash_ret]. Qed.
Lemma run_S' n k acc p px py raw o : run kbyte kbit k (S n) (acc, p, px, py) raw o = (get* e := take 5 in get* st := plift (decode kbyte kbit e) in
  run kbyte kbit (S k) n (acc ++ map (fun k => VEv k (state_ms st) (s_x st) (s_y st)) (mvf_changes st p px py), st, s_x st, s_y st)) raw o.
Proof. rewrite run_S. unfold mvf_event, pbind. destruct (take 5 raw o) as [[e|e| |] o1]; [|reflexivity..]. destruct (plift (decode kbyte kbit e) raw o1) as [[st|e1| |] o2]; reflexivity. Qed.
Lemma run_exact n : forall k acc p px py, exact (run kbyte kbit k n (acc, to_state p, px, py))
    (fun bs es => exists recs, bs = concat recs /\ length recs = n /\ Forall (fun r => length r = 5%nat) recs /\ es = acc ++ mvf_story p px py (map (mvf_decode s) recs)) /\ crash (run kbyte kbit k n (acc, to_state p, px, py)) never.
Proof.
  induction n as [|n IH]; intros k acc p px py.
  - split; [|apply crash_ret]. eapply exact_iff; [apply (@exact_ret (list vev) acc)|]. intros bs es _. split.
    + intros [-> ->]. exists []. cbn. rewrite app_nil_r. auto.
    + intros ([|r recs] & -> & L & _ & ->); [|discriminate L]. cbn. now rewrite app_nil_r.
  - assert (G : forall e raw o, bytes e -> length e = 5%nat -> (get* st := plift (decode kbyte kbit e) in run kbyte kbit (S k) n (acc ++ map (fun k => VEv k (state_ms st) (s_x st) (s_y st)) (mvf_changes st (to_state p) px py), st, s_x st, s_y st)) raw o =
        run kbyte kbit (S k) n (acc ++ map (mvf_ev (mvf_decode s e)) (mvf_between p px py (mvf_decode s e)), to_state (mvf_decode s e), m_x (mvf_decode s e), m_y (mvf_decode s e)) raw o).
    { intros e raw o He L. rewrite (decode_ok K He L). unfold pbind, plift. rewrite between_ok, ms_ok. reflexivity. }
    split.
    + eapply exact_ext; [intros; apply run_S'|]. eapply exact_iff.
      * eapply exact_bind with (L2 := fun r bs es => exists recs, bs = concat recs /\ length recs = n /\ Forall (fun r => length r = 5%nat) recs /\
            es = (acc ++ map (mvf_ev (mvf_decode s r)) (mvf_between p px py (mvf_decode s r))) ++ mvf_story (mvf_decode s r) (m_x (mvf_decode s r)) (m_y (mvf_decode s r)) (map (mvf_decode s) recs)); [apply exact_take|].
        intros r st Hb [L ->]. eapply exact_ext; [intros; apply G; assumption|]. apply IH.
      * intros bs es _. cbn beta. split.
        -- intros (? & ? & r & -> & [L ->] & recs & -> & Ln & HF & ->). eexists (_ :: recs). split; [reflexivity|]. split; [cbn; congruence|]. split; [constructor; assumption|]. cbn [map mvf_story]. now rewrite <- app_assoc.
        -- intros ([|r recs] & -> & Ln & HF & ->); [discriminate Ln|]. inversion HF; subst. injection Ln as Ln. exists r, (concat recs), r. split; [reflexivity|]. split; [auto|]. exists recs. split; auto. split; auto. split; auto. cbn [map mvf_story]. now rewrite <- app_assoc.
    + eapply crash_ext; [intros; apply run_S'|]. eapply crash_iff; [eapply crash_seq with (C2 := fun _ => never); [apply exact_take|apply crash_take|]|].
      * intros r st Hb [L ->]. eapply crash_ext; [intros; apply G; assumption|]. apply IH.
      * intros bs _. split; [intros (? & ? & ? & _ & _ & [])|intros []].
Qed.
End Records.
Section File.
Variable magic : Z -> list Z.
Hypothesis M : forall l, five_numbers (magic l).
Definition tail_of (leading : Z) : P (list vev) :=
  get* (byte, bit) := plift (key_table (key_digits magic leading)) in
  get* size := get_u24 in
  get* e := take 5 in
  get* s := plift (decode byte bit e) in
  let k := if 0 <? s_mb s then e_mc else if 0 <? s_rb s then e_rc else if 0 <? s_lb s then e_lc else e_mv in
  get* n := plift (usubZ size 1) in
  get* (events, _, _, _) := pfold (mvf_event byte bit) (seq 0 (Z.to_nat n)) ([VEv k (state_ms s) (s_x s) (s_y s)], s, 0, 0) in
  pret events.
Notation key l := (mvf_key (magic l)).
Definition tail_calc (leading : Z) : P (list vev) :=
  get* size := get_u24 in
  get* e := take 5 in
  get* n := plift (usubZ size 1) in
  run (map (fun j => (j / 8)%nat) (key_order (key leading))) (map (fun j => Z.shiftl 1 (Z.of_nat (j mod 8))) (key_order (key leading))) 0 (Z.to_nat n) ([mvf_ev (mvf_decode (key leading) e) (mvf_first (mvf_decode (key leading) e))], to_state (mvf_decode (key leading) e), 0, 0).
Lemma take_bytes n raw o bs o' : bytes raw -> take n raw o = (Ok bs, o') -> bytes bs /\ length bs = n.
Proof. intros Hr E. pose proof (@exact_take n raw o bs o' Hr) as H. apply H in E. destruct E as (b & E1 & _ & L & ->). split; auto. eapply seg_bytes; eauto. Qed.
Lemma tail_ext leading raw o : bytes raw -> tail_of leading raw o = tail_calc leading raw o.
Proof.
  intros Hr. pose proof (mvf_key_ok (M leading)) as K. unfold tail_of, tail_calc. rewrite (key_digits_ok (M leading)), (key_table_ok K). unfold pbind, plift. destruct (get_u24 raw o) as [[size|e| |] o1]; [|reflexivity..].
  destruct (take 5 raw o1) as [[r|e| |] o2] eqn:E; [|reflexivity..]. apply take_bytes in E as [Hb L]; auto. rewrite (decode_ok K Hb L). destruct (usubZ size 1) as [n|e| |]; [|reflexivity..]. unfold run, pbind. rewrite ms_ok.
  replace (VEv _ _ _ _) with (mvf_ev (mvf_decode (key leading) r) (mvf_first (mvf_decode (key leading) r))); [reflexivity|]. unfold mvf_ev, mvf_first, to_state. cbn [s_x s_y s_rb s_mb s_lb]. f_equal.
  destruct (m_mid _), (m_right _), (m_left _); reflexivity.
Qed.
Lemma exact_tail leading : exact (tail_of leading) (fun bs es => exists recs, bs = be24 (Z.of_nat (length recs)) ++ concat recs /\ u24 (Z.of_nat (length recs)) /\ recs <> [] /\ Forall (fun r => length r = 5%nat) recs /\
  es = mvf_events (map (mvf_decode (key leading)) recs)).
Proof.
  intros raw o es o' Hr. rewrite (tail_ext leading o Hr). revert raw o es o' Hr. change (exact (tail_calc leading) (fun bs es => exists recs, bs = be24 (Z.of_nat (length recs)) ++ concat recs /\ u24 (Z.of_nat (length recs)) /\ recs <> [] /\ Forall (fun r => length r = 5%nat) recs /\
    es = mvf_events (map (mvf_decode (key leading)) recs))).
  pose proof (mvf_key_ok (M leading)) as K. unfold tail_calc. eapply exact_iff.
  - eapply exact_bind; [apply exact_be24|]. intros ? size _ _. eapply exact_bind; [apply exact_take|]. intros ? e _ _. eapply exact_bind; [apply exact_lift|]. intros ? n _ _. apply (run_exact K).
  - intros bs es _. cbn beta. split.
    + intros (? & ? & size & -> & [-> Hs] & r & ? & ? & -> & [L ->] & ? & ? & n & -> & [-> E] & recs & -> & Ln & HF & ->). apply usubZ_ok in E as [H1 ->]. unfold u24 in Hs.
      exists (r :: recs). assert (EL : Z.of_nat (length (r :: recs)) = size) by (cbn [length]; lia). rewrite EL. split; [reflexivity|]. split; [exact Hs|]. split; [discriminate|]. split; [constructor; assumption|]. reflexivity.
    + intros ([|r recs] & -> & Hs & Hne & HF & ->); [contradiction|]. inversion HF; subst. eexists. eexists. exists (Z.of_nat (length (r :: recs))). split; [reflexivity|]. split; [auto|]. exists r, (concat recs), r. split; [reflexivity|]. split; [auto|].
      exists [], (concat recs), (Z.of_nat (length recs)). split; [reflexivity|]. split; [split; auto; apply usubZ_ok; cbn [length]; lia|]. exists recs. split; auto. split; [lia|]. split; [auto|]. reflexivity.
Qed.
Lemma tail_crash leading : crash (tail_of leading) (fun bs => exists r, length r = 5%nat /\ bs = be24 0 ++ r).
Proof.
  intros raw o Hr. rewrite (tail_ext leading o Hr). revert raw o Hr. change (crash (tail_calc leading) (fun bs => exists r, length r = 5%nat /\ bs = be24 0 ++ r)).
  pose proof (mvf_key_ok (M leading)) as K. unfold tail_calc. eapply crash_iff.
  - eapply crash_seq; [apply exact_be24|apply crash_u24|]. intros ? size _ _. eapply crash_seq; [apply exact_take|apply crash_take|]. intros ? e _ _. eapply crash_bind; [apply exact_lift|apply crash_lift; unfold usubZ; destruct (1 <=? size); discriminate|]. intros ? n _ _. apply (run_exact K).
  - intros bs _. cbn beta. split.
    + intros (? & ? & size & -> & [-> Hs] & r & ? & ? & -> & [L ->] & [(-> & E)|(? & ? & ? & _ & _ & [])]). unfold usubZ in E. destruct (Z.leb_spec 1 size) as [X|X]; [discriminate E|]. unfold u24 in Hs. assert (size = 0) by lia. subst size. rewrite app_nil_r. eauto.
    + intros (r & L & ->). exists (be24 0), r, 0. split; auto. split; [split; [auto|unfold u24; lia]|]. exists r, [], r. split; [now rewrite app_nil_r|]. split; auto.
Qed.
Lemma tail_det leading : det (tail_of leading).
Proof. unfold tail_of. apply det_bind; [apply det_lift|intros [? ?]]. apply det_bind; [apply det_u24|intros]. apply det_bind; [apply det_take|intros]. apply det_bind; [apply det_lift|intros]. cbn zeta. apply det_bind; [apply det_lift|intros]. apply run_det. Qed.
Lemma exact_records : exact (mvf_records magic) (fun bs es => exists leading recs, bs = be16 leading ++ be24 (Z.of_nat (length recs)) ++ concat recs /\ u16 leading /\ u24 (Z.of_nat (length recs)) /\ recs <> [] /\ Forall (fun r => length r = 5%nat) recs /\
  es = mvf_events (map (mvf_decode (key leading)) recs)).
Proof.
  change (mvf_records magic) with (pbind get_u16 tail_of). eapply exact_iff; [eapply exact_bind; [apply exact_be16|intros ? leading _ _; apply exact_tail]|]. intros bs es _. split.
  - intros (? & ? & leading & -> & [-> Hl] & recs & -> & H). exists leading, recs. tauto.
  - intros (leading & recs & -> & Hl & H). exists (be16 leading). eexists. exists leading. split; [reflexivity|]. split; [auto|]. exists recs. tauto.
Qed.
Lemma records_crash : crash (mvf_records magic) (fun bs => exists leading r, u16 leading /\ length r = 5%nat /\ bs = be16 leading ++ be24 0 ++ r).
Proof.
  change (mvf_records magic) with (pbind get_u16 tail_of). eapply crash_iff; [eapply crash_seq; [apply exact_be16|apply crash_u16|intros ? leading _ _; apply tail_crash]|]. intros bs _. split.
  - intros (? & ? & leading & -> & [-> Hl] & r & L & ->). eauto 6.
  - intros (leading & r & Hl & L & ->). exists (be16 leading), (be24 0 ++ r), leading. eauto 6.
Qed.
Lemma records_det : det (mvf_records magic).
Proof. change (mvf_records magic) with (pbind get_u16 tail_of). apply det_bind; [apply det_u16|intros; apply tail_det]. Qed.

(** ** the whole file *)
Definition mvf_result (v : oldv) (a : mvf_contents) : Prop :=
  o_software v = [48; 46; 57; 55; 32; 98; 101; 116; 97] /\ o_level v = f_level a /\ o_width v = f_width a /\ o_height v = f_height a /\
  o_mines v = Z.of_nat (length (f_mines a)) /\ o_mode v = f_mode a /\ o_nf v = false /\ o_bbbv v = f_bbbv a /\ o_rtime_ms v = f_rtime a /\ o_start v = [] /\ o_end v = [] /\
  o_player v = f_player a /\ o_country v = [] /\ o_events v = mvf_events (f_records a) /\ board_of (f_height a) (f_width a) (f_mines a) (o_board v).
Definition mvf_body (file : list Z) (a : mvf_contents) : Prop :=
  exists date level mode sec hs j9 count leading recs,
    file = date ++ [level; mode] ++ be16 sec ++ [hs] ++ be16 (f_bbbv a) ++ j9 ++ [Z.of_nat (f_width a); Z.of_nat (f_height a)] ++ be16 count ++
           mvf_mines (f_mines a) ++ counted (f_player a) ++ be16 leading ++ be24 (Z.of_nat (length recs)) ++ concat recs /\
    length date = 7%nat /\ level < 254 /\ f_level a = level + 2 /\ f_mode a = mvf_mode mode /\
    u16 sec /\ f_rtime a = sec * 1000 + hs * 10 /\ u16 (f_bbbv a) /\ length j9 = 9%nat /\
    (1 <= f_height a)%nat /\ u16 count /\ length (f_mines a) = Z.to_nat count /\ u16 leading /\
    u24 (Z.of_nat (length recs)) /\ recs <> [] /\ Forall (fun r => length r = 5%nat) recs /\
    f_records a = map (mvf_decode (mvf_key (magic leading))) recs.
Lemma mvf_file_body file a : mvf_file magic file a <-> exists mark body, file = mark ++ body /\ mvf_mark mark /\ mvf_body body a.
Proof.
  unfold mvf_file, mvf_body. split.
  - intros (mark & date & level & mode & sec & hs & j9 & count & leading & recs & E & Hm & H). exists mark. eexists. split; [exact E|]. split; [exact Hm|]. exists date, level, mode, sec, hs, j9, count, leading, recs. split; [reflexivity|exact H].
  - intros (mark & body & E & Hm & date & level & mode & sec & hs & j9 & count & leading & recs & -> & H). exists mark, date, level, mode, sec, hs, j9, count, leading, recs. auto.
Qed.
Lemma exact_097 : exact (read_097 magic) (fun bs v => exists a, mvf_body bs a /\ mvf_result v a).
Proof.
  unfold read_097. eapply exact_iff.
  - eapply exact_bind4; [apply exact_head|]. intros ? level mode rtime bbbv _ _.
    eapply exact_bind3; [apply exact_msize|]. intros ? w h m _ _.
    eapply exact_bind; [apply exact_mvf_board|]. intros ? b _ _.
    eapply exact_bind; [apply exact_player|]. intros ? player _ _.
    eapply exact_bind; [apply exact_records|]. intros ? events _ _. apply exact_ret.
  - intros bs v Hb. cbn beta. unfold mvf_body. split.
    + intros (? & ? & level & mode & rtime & bbbv & -> & (date & l & mo & sec & hs & -> & Hd & Hl & -> & -> & Hs & -> & H3) & ? & ? & w & h & m & -> & (j9 & -> & H9 & Hm) & ? & ? & b & -> & (H1 & mines & -> & Hlen & Hbd)
        & ? & ? & player & -> & -> & ? & ? & events & -> & (leading & recs & -> & Hle & Hu & Hne & HF & ->) & -> & ->).
      exists (Mvf (l + 2) (mvf_mode mo) h w mines bbbv (sec * 1000 + hs * 10) player (map (mvf_decode (key leading)) recs)). split.
      * exists date, l, mo, sec, hs, j9, m, leading, recs. cbn [f_level f_mode f_height f_width f_mines f_bbbv f_rtime f_player f_records].
        split; [rewrite <- !app_assoc; cbn [app]; now rewrite app_nil_r|]. auto 20.
      * unfold mvf_result. cbn. do 4 (split; [reflexivity|]). split; [unfold u16 in Hm; lia|]. auto 20.
    + intros ([level mode h w mines bbbv rtime player records] & (date & l & mo & sec & hs & j9 & m & leading & recs & Hfile & Hd & Hl & Hlev & Hmo & Hs & Hrt & H3 & H9 & H1 & Hm & Hlen & Hle & Hu & Hne & HF & Hrec) & Hres).
      cbn [f_level f_mode f_height f_width f_mines f_bbbv f_rtime f_player f_records] in *. subst bs level mode rtime records.
      destruct v as [vs0 vl vw vh vm vmo vnf vb vr vst ven vp vc vbd vev]. unfold mvf_result in Hres. cbn [o_software o_level o_width o_height o_mines o_mode o_nf o_bbbv o_rtime_ms o_start o_end o_player o_country o_board o_events f_level f_mode f_height f_width f_mines f_bbbv f_rtime f_player f_records] in Hres.
      destruct Hres as (-> & -> & -> & -> & -> & -> & -> & -> & -> & -> & -> & -> & -> & -> & Hbd).
      exists (date ++ [l; mo] ++ be16 sec ++ [hs] ++ be16 bbbv). eexists. exists (l + 2), (mvf_mode mo), (sec * 1000 + hs * 10), bbbv. split; [rewrite <- !app_assoc; reflexivity|]. split; [exists date, l, mo, sec, hs; auto 10|].
      exists (j9 ++ [Z.of_nat w; Z.of_nat h] ++ be16 m). eexists. exists w, h, m. split; [rewrite <- !app_assoc; reflexivity|]. split; [eauto|].
      exists (mvf_mines mines). eexists. exists vbd. split; [reflexivity|]. split; [split; auto; exists mines; auto|].
      exists (counted player). eexists. exists player. split; [reflexivity|]. split; [reflexivity|].
      eexists. exists []. eexists. split; [symmetry; apply app_nil_r|]. split; [exists leading, recs; split; [reflexivity|]; auto 10|]. split; auto. f_equal. unfold u16 in Hm. lia.
Qed.
Lemma crash_097 : crash (read_097 magic) (fun bs => exists date level, length date = 7%nat /\
    (254 <= level /\ bs = date ++ [level] \/
     exists mode sec hs bbbv j9 w h count, u16 sec /\ u16 bbbv /\ length j9 = 9%nat /\ u16 count /\ level < 254 /\
       let front := date ++ [level; mode] ++ be16 sec ++ [hs] ++ be16 bbbv ++ j9 ++ [w; h] ++ be16 count in
       (h = 0 /\ count = 0 /\ bs = front \/
        (exists ok x y, Forall (inb (Z.to_nat h) (Z.to_nat w)) ok /\ (length ok < Z.to_nat count)%nat /\ ~ (1 <= x <= w /\ 1 <= y <= h) /\ bs = front ++ mvf_mines ok ++ [x; y]) \/
        (exists mines player leading r, 1 <= h /\ Forall (inb (Z.to_nat h) (Z.to_nat w)) mines /\ length mines = Z.to_nat count /\ u16 leading /\ length r = 5%nat /\
           bs = front ++ mvf_mines mines ++ counted player ++ be16 leading ++ be24 0 ++ r)))).
Proof.
  unfold read_097. eapply crash_iff.
  - eapply crash_bind4; [apply exact_head|apply head_crash|]. intros ? level mode rtime bbbv _ _.
    eapply crash_seq3; [apply exact_msize|apply msize_calm|]. intros ? w h m _ _.
    eapply crash_bind; [apply exact_mvf_board|apply mvf_board_crash|]. intros ? b _ _.
    eapply crash_seq; [apply exact_player|apply player_calm|]. intros ? player _ _.
    eapply crash_bind; [apply exact_records|apply records_crash|]. intros ? events _ _. apply crash_ret.
  - intros bs Hb. cbn beta. split.
    + intros [(date & l & -> & Hd & Hl)|(? & ? & level & mode & rtime & bbbv & -> & (date & l & mo & sec & hs & -> & Hd & Hl & -> & -> & Hs & -> & H3) & ? & ? & w & h & m & -> & (j9 & -> & H9 & Hm) & H)].
      { exists date, l. auto. }
      exists date, l. split; [exact Hd|]. right. exists mo, sec, hs, bbbv, j9, (Z.of_nat w), (Z.of_nat h), m. do 5 (split; [assumption|]). cbn zeta. rewrite !Nat2Z.id. unfold u16 in Hm.
      destruct H as [[(H0 & Hm0 & ->)|(ok & x & y & Hin & Hlt & Hbad & ->)]|(? & ? & b & -> & (H1 & mines & -> & Hlen & Hbd) & ? & ? & player & -> & -> & [(leading & r & Hle & L & ->)|(? & ? & ? & _ & _ & [])])].
      * left. split; [lia|]. split; [lia|]. rewrite app_nil_r. rewrite <- !app_assoc. reflexivity.
      * right. left. exists ok, x, y. split; [exact Hin|]. split; [exact Hlt|]. split; [exact Hbad|]. rewrite <- !app_assoc. reflexivity.
      * right. right. exists mines, player, leading, r. split; [lia|]. split; [apply Hbd|]. split; [exact Hlen|]. split; [exact Hle|]. split; [exact L|]. rewrite <- !app_assoc. reflexivity.
    + intros (date & l & Hd & [[Hl ->]|(mo & sec & hs & bbbv & j9 & w & h & m & Hs & H3 & H9 & Hm & Hl & H)]); [left; eauto|]. right. cbn zeta in H.
      assert (E : exists rest, bs = (date ++ [l; mo] ++ be16 sec ++ [hs] ++ be16 bbbv) ++ (j9 ++ [w; h] ++ be16 m) ++ rest /\ (h = 0 /\ m = 0 /\ rest = [] \/
         (exists ok x y, Forall (inb (Z.to_nat h) (Z.to_nat w)) ok /\ (length ok < Z.to_nat m)%nat /\ ~ (1 <= x <= w /\ 1 <= y <= h) /\ rest = mvf_mines ok ++ [x; y]) \/
         (exists mines player leading r, 1 <= h /\ Forall (inb (Z.to_nat h) (Z.to_nat w)) mines /\ length mines = Z.to_nat m /\ u16 leading /\ length r = 5%nat /\ rest = mvf_mines mines ++ counted player ++ be16 leading ++ be24 0 ++ r))).
      { destruct H as [(? & ? & ->)|[(ok & x & y & ? & ? & ? & ->)|(mines & player & leading & r & ? & ? & ? & ? & ? & ->)]]; eexists; (split; [rewrite <- !app_assoc; try (now rewrite app_nil_r); reflexivity|]); [left|right; left|right; right].
        - auto.
        - exists ok, x, y. auto.
        - exists mines, player, leading, r. auto 8. }
      clear H. destruct E as (rest & -> & H).
      assert (Hwh : 0 <= w /\ 0 <= h). { repeat rewrite ?bytes_cons_iff, ?bytes_app_iff in Hb. unfold byte in Hb. tauto. } destruct Hwh as [Hw Hh'].
      eexists. eexists. exists (l + 2), (mvf_mode mo), (sec * 1000 + hs * 10), bbbv. split; [reflexivity|]. split; [exists date, l, mo, sec, hs; auto 10|].
      exists (j9 ++ [w; h] ++ be16 m), rest, (Z.to_nat w), (Z.to_nat h), m. split; [reflexivity|]. split; [exists j9; rewrite !Z2Nat.id by lia; auto|].
      destruct H as [(-> & -> & ->)|[(ok & x & y & Hin & Hlt & Hbad & ->)|(mines & player & leading & r & H1 & Hin & Hlen & Hle & L & ->)]].
      * left. left. auto.
      * left. right. exists ok, x, y. rewrite !Z2Nat.id by lia. auto.
      * right. assert (HB : exists b, board_of (Z.to_nat h) (Z.to_nat w) mines b) by (apply board_exists; [lia|exact Hin]). destruct HB as [b HB].
        exists (mvf_mines mines). eexists. exists b. split; [reflexivity|]. split; [split; [lia|]; exists mines; auto|]. exists (counted player). eexists. exists player. split; [reflexivity|]. split; [reflexivity|]. left. eauto 6.
Qed.
Lemma det_097 : det (read_097 magic).
Proof.
  unfold read_097. apply det_bind; [apply head_det|intros [[[? ?] ?] ?]]. apply det_bind; [apply msize_calm|intros [[? ?] ?]]. apply det_bind; [apply (det_ext (mvf_board_ext _ _)), det_board|intros]. apply det_bind; [apply player_calm|intros]. apply det_bind; [apply records_det|intros]. apply det_ret.
Qed.
Lemma body_strict bs a : mvf_body bs a -> bs <> [].
Proof. intros (date & level & mode & sec & hs & j9 & count & leading & recs & -> & Hd & _) X. destruct date; [discriminate Hd|discriminate X]. Qed.
Lemma mvf_exact : exact (parse_mvf magic) (fun bs v => (exists a, mvf_file magic bs a /\ mvf_result v a) \/ mvf_other bs /\ v = empty_oldv).
Proof.
  unfold parse_mvf. eapply exact_iff.
  - eapply exact_bind; [apply exact_u8|]. intros ? c _ _.
    eapply exact_bind with (L2 := fun d bs v => if (c =? 17) && (d =? 77) then exists j b, bs = j ++ b /\ length j = 25%nat /\ exists x b', b = x :: b' /\ byte x /\ (x = 53 /\ (exists j2 b2, b' = j2 ++ b2 /\ length j2 = 46%nat /\ exists a, mvf_body b2 a /\ mvf_result v a) \/ x <> 53 /\ b' = [] /\ v = empty_oldv) else bs = [] /\ v = empty_oldv); [apply exact_u8|]. intros ? d _ _.
    destruct ((c =? 17) && (d =? 77)); [|apply exact_ret]. eapply exact_skip.
    + eapply exact_iff.
      * eapply exact_bind with (L2 := fun x b' v => x = 53 /\ (exists j2 b2, b' = j2 ++ b2 /\ length j2 = 46%nat /\ exists a, mvf_body b2 a /\ mvf_result v a) \/ x <> 53 /\ b' = [] /\ v = empty_oldv); [apply exact_u8|]. intros ? x _ _.
        destruct (Z.eqb_spec x 53) as [->|N].
        -- eapply exact_iff; [eapply exact_skip; [apply exact_097|intros ? ? (a & H & _); exact (body_strict H)]|]. intros zs v _. cbn beta. split; [auto|]. intros [[_ H]|[X _]]; [exact H|contradiction].
        -- eapply exact_iff; [apply exact_ret|]. intros zs v _. cbn beta. split; [auto|]. intros [[X _]|[_ H]]; [contradiction|exact H].
      * intros zs v _. cbn beta. split.
        -- intros (? & b' & x & -> & [-> Hx] & H). exists x, b'. auto.
        -- intros (x & b' & -> & Hx & H). exists [x], b', x. auto.
    + intros zs v (x & b' & -> & _) X. discriminate X.
  - intros zs v Hb. cbn beta. split.
    + intros (? & ? & c & -> & [-> Hc] & ? & ? & d & -> & [-> Hd] & H). destruct ((c =? 17) && (d =? 77)) eqn:E.
      * assert (c = 17 /\ d = 77) as [-> ->] by lia. destruct H as (j & b & -> & Hj & x & b' & -> & Hx & [(-> & j2 & b2 & -> & Hj2 & a & Hbody & Hres)|(N & -> & ->)]).
        -- left. exists a. split; [|exact Hres]. apply mvf_file_body. exists ([17; 77] ++ j ++ [53] ++ j2), b2. split; [rewrite <- !app_assoc; reflexivity|]. split; [exists j, j2; auto|exact Hbody].
        -- right. split; [|reflexivity]. right. exists j, x. auto.
      * destruct H as [-> ->]. right. split; [|reflexivity]. left. exists c, d. split; auto. lia.
    + intros [(a & Hf & Hres)|[[(c & d & -> & N)|(j & x & -> & Hj & N)] ->]].
      * apply mvf_file_body in Hf as (mark & body & -> & (j1 & j2 & -> & H1 & H2) & Hbody). rewrite <- !app_assoc in *. exists [17]. eexists. exists 17. split; [reflexivity|]. split; [split; [auto|unfold byte; lia]|]. exists [77]. eexists. exists 77. split; [reflexivity|]. split; [split; [auto|unfold byte; lia]|].
        cbn [Z.eqb Pos.eqb andb]. exists j1. eexists. split; [reflexivity|]. split; [exact H1|]. exists 53, (j2 ++ body). split; [reflexivity|]. split; [unfold byte; lia|]. left. split; [reflexivity|]. exists j2, body. eauto.
      * repeat rewrite ?bytes_cons_iff in Hb. destruct Hb as (Hc & Hd & _). exists [c], [d], c. split; auto. split; auto. exists [d], [], d. split; auto. split; auto. replace ((c =? 17) && (d =? 77)) with false by lia. auto.
      * exists [17]. eexists. exists 17. split; [reflexivity|]. split; [split; [auto|unfold byte; lia]|]. exists [77]. eexists. exists 77. split; [reflexivity|]. split; [split; [auto|unfold byte; lia]|].
        cbn [Z.eqb Pos.eqb andb]. exists j, [x]. split; auto. split; auto. exists x, []. split; auto. split; [|auto]. repeat rewrite ?bytes_cons_iff, ?bytes_app_iff in Hb. tauto.
Qed.
Lemma mvf_crashes : crash (parse_mvf magic) mvf_crash.
Proof.
  unfold parse_mvf. set (C97 := fun bs => exists date level, length date = 7%nat /\
    (254 <= level /\ bs = date ++ [level] \/
     exists mode sec hs bbbv j9 w h count, u16 sec /\ u16 bbbv /\ length j9 = 9%nat /\ u16 count /\ level < 254 /\
       let front := date ++ [level; mode] ++ be16 sec ++ [hs] ++ be16 bbbv ++ j9 ++ [w; h] ++ be16 count in
       (h = 0 /\ count = 0 /\ bs = front \/
        (exists ok x y, Forall (inb (Z.to_nat h) (Z.to_nat w)) ok /\ (length ok < Z.to_nat count)%nat /\ ~ (1 <= x <= w /\ 1 <= y <= h) /\ bs = front ++ mvf_mines ok ++ [x; y]) \/
        (exists mines player leading r, 1 <= h /\ Forall (inb (Z.to_nat h) (Z.to_nat w)) mines /\ length mines = Z.to_nat count /\ u16 leading /\ length r = 5%nat /\
           bs = front ++ mvf_mines mines ++ counted player ++ be16 leading ++ be24 0 ++ r)))).
  assert (HC : forall bs, C97 bs -> bs <> []).
  { intros bs (date & level & Hd & H) ->. destruct date as [|d0 date]; [discriminate Hd|]. destruct H as [[_ X]|(mode & sec & hs & bbbv & j9 & w & h & count & _ & _ & _ & _ & _ & H)]; [discriminate X|]. cbn zeta in H.
    destruct H as [(_ & _ & X)|[(ok & x & y & _ & _ & _ & X)|(mines & player & leading & r & _ & _ & _ & _ & _ & X)]]; discriminate X. }
  eapply crash_iff.
  - eapply crash_seq; [apply exact_u8|apply crash_u8|]. intros ? c _ _.
    eapply crash_seq with (C2 := fun d bs => c = 17 /\ d = 77 /\ exists j b, bs = j ++ b /\ length j = 25%nat /\ exists b', b = 53 :: b' /\ exists j2 b2, b' = j2 ++ b2 /\ length j2 = 46%nat /\ C97 b2); [apply exact_u8|apply crash_u8|]. intros ? d _ _.
    destruct ((c =? 17) && (d =? 77)) eqn:E.
    + assert (c = 17 /\ d = 77) as [-> ->] by lia. eapply crash_iff; [eapply crash_skip with (C := fun b => exists b', b = 53 :: b' /\ exists j2 b2, b' = j2 ++ b2 /\ length j2 = 46%nat /\ C97 b2)|].
      * eapply crash_iff; [eapply crash_seq with (C2 := fun x b' => x = 53 /\ exists j2 b2, b' = j2 ++ b2 /\ length j2 = 46%nat /\ C97 b2); [apply exact_u8|apply crash_u8|]; intros ? x _ _|].
        -- destruct (Z.eqb_spec x 53) as [->|N]; [eapply crash_iff; [eapply crash_skip; [apply crash_097|exact HC]|]|eapply crash_iff; [apply crash_ret|]]; intros zs _; cbn beta; [unfold C97; tauto|]. split; [intros []|]. intros [X _]. contradiction.
        -- intros zs Hb. cbn beta. split; [intros (? & ? & x & -> & [-> Hx] & -> & H); eexists; split; [reflexivity|exact H]|]. intros (b' & -> & H). exists [53], b', 53. split; auto. split; [split; [auto|unfold byte; lia]|auto].
      * intros zs (b' & -> & _) X. discriminate X.
      * intros zs _. cbn beta. tauto.
    + eapply crash_iff; [apply crash_ret|]. intros zs _. split; [intros []|]. intros (-> & -> & _). discriminate E.
  - intros bs Hb. cbn beta. unfold mvf_crash. split.
    + intros (? & ? & c & -> & [-> _] & ? & ? & d & -> & [-> _] & -> & -> & j & b & -> & Hj & b' & -> & j2 & b2 & -> & Hj2 & date & level & Hd & H). exists ([17; 77] ++ j ++ [53] ++ j2), date, level. split; [exists j, j2; auto|]. split; [exact Hd|].
      destruct H as [[Hl ->]|(mode & sec & hs & bbbv & j9 & w & h & count & ? & ? & ? & ? & ? & H)]; [left; split; [exact Hl|]; rewrite <- !app_assoc; reflexivity|right]. exists mode, sec, hs, bbbv, j9, w, h, count. do 5 (split; [assumption|]). cbn zeta in *.
      destruct H as [(? & ? & ->)|[(ok & x & y & ? & ? & ? & ->)|(mines & player & leading & r & ? & ? & ? & ? & ? & ->)]]; [left|right; left|right; right].
      * split; [assumption|]. split; [assumption|]. rewrite <- !app_assoc. reflexivity.
      * exists ok, x, y. do 3 (split; [assumption|]). rewrite <- !app_assoc. reflexivity.
      * exists mines, player, leading, r. do 5 (split; [assumption|]). rewrite <- !app_assoc. reflexivity.
    + intros (mark & date & level & (j1 & j2 & -> & H1 & H2) & Hd & H).
      assert (E : exists b2, bs = [17; 77] ++ j1 ++ [53] ++ j2 ++ b2 /\ C97 b2).
      { destruct H as [[Hl ->]|(mode & sec & hs & bbbv & j9 & w & h & count & ? & ? & ? & ? & ? & H)].
        - exists (date ++ [level]). split; [rewrite <- !app_assoc; reflexivity|]. exists date, level. auto.
        - cbn zeta in H. destruct H as [(? & ? & ->)|[(ok & x & y & ? & ? & ? & ->)|(mines & player & leading & r & ? & ? & ? & ? & ? & ->)]]; eexists; (split; [rewrite <- !app_assoc; reflexivity|]);
            exists date, level; (split; [assumption|]); right; exists mode, sec, hs, bbbv, j9, w, h, count; do 5 (split; [assumption|]); cbn zeta; [left|right; left|right; right].
          + auto.
          + exists ok, x, y. do 3 (split; [assumption|]). rewrite <- !app_assoc. reflexivity.
          + exists mines, player, leading, r. do 5 (split; [assumption|]). rewrite <- !app_assoc. reflexivity. }
      destruct E as (b2 & -> & HC2). exists [17]. eexists. exists 17. split; [reflexivity|]. split; [split; [auto|unfold byte; lia]|]. exists [77]. eexists. exists 77. split; [reflexivity|]. split; [split; [auto|unfold byte; lia]|]. split; auto. split; auto.
      exists j1. eexists. split; [reflexivity|]. split; [exact H1|]. eexists. split; [reflexivity|]. exists j2, b2. auto.
Qed.
Lemma mvf_det : det (parse_mvf magic).
Proof.
  unfold parse_mvf. apply det_bind; [apply det_u8|intros c]. apply det_bind; [apply det_u8|intros d]. destruct ((c =? 17) && (d =? 77)); [|apply det_ret]. apply det_bind; [apply det_skip|intros]. apply det_bind; [apply det_u8|intros x]. destruct (x =? 53); [|apply det_ret]. apply det_bind; [apply det_skip|intros]. apply det_097.
Qed.
End File.
