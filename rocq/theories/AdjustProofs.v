(** * AdjustProofs: [laymine_solvable_adjust] always returns a legal board (C39). *)
From Verif Require Import Base Spec BaseFacts LayMine LayMineProofs Matrix Solve SolverSpec MatrixProofs LinFacts DirectProofs
  ChunkProofs SolveProofs EnumProofs EnumSolve MatrixMeaning SolvableProofs Blocks BlocksProofs GuessProofs Adjust.
Open Scope Z_scope.

(** ** helpers *)
Lemma fill_ok row column v l : Forall (inb row column) l -> forall g, rect row column g ->
  exists g', fill g l v = Ok g' /\ rect row column g' /\ forall q, cell g' q = if mem_pos q l then v else cell g q.
Proof.
  induction 1 as [|[x y] l Hp Hl IH]; intros g Hg; unfold fill; cbn [foldM].
  - exists g. split; auto.
  - rewrite (set_ok _ Hg Hp). cbn [bind]. destruct (IH (upd g (x, y) v)) as (g' & E & Hr & Hc); [now apply rect_upd|].
    exists g'. split; auto. split; auto. intros q. rewrite Hc.
    destruct (mem_pos_spec q l) as [Hq|Hq]; [rewrite mem_true by (now right); auto|].
    destruct (pos_eq_dec q (x, y)) as [->|Hn].
    + rewrite (cell_upd_eq _ Hg Hp), mem_true by (now left). auto.
    + rewrite cell_upd_neq by auto. rewrite mem_false; auto. intros [E'|Hq']; [now symmetry in E'|auto].
Qed.

(** the shuffled values are written onto the cells *)
Lemma lay_list row column d : forall cells id b, NoDup cells -> Forall (inb row column) cells -> rect row column b -> (id + length cells <= length d)%nat ->
  exists b', foldM (fun '(b, id) '(x, y) => let* v := vget d id in let* b := set b x y v in Ok (b, S id)) cells (b, id) = Ok (b', (id + length cells)%nat) /\
    rect row column b' /\ map (cell b') cells = firstn (length cells) (skipn id d) /\ forall q, ~ In q cells -> cell b' q = cell b q.
Proof.
  induction cells as [|[x y] cells IH]; intros id b Nd Hin Hb Hl; cbn [foldM length] in *.
  - exists b. rewrite Nat.add_0_r. auto.
  - inversion Nd as [|? ? Hni Nd']; subst. inversion Hin as [|? ? Hp Hin']; subst.
    rewrite (vget_ok 0) by lia. cbn [bind]. rewrite (set_ok _ Hb Hp). cbn [bind].
    destruct (IH (S id) (upd b (x, y) (nth id d 0))) as (b' & E & Hr & Hm & Ho); auto; [now apply rect_upd|lia|].
    exists b'. split; [rewrite E; do 2 f_equal; lia|]. split; auto. split.
    + cbn [map]. rewrite Ho by auto. rewrite (cell_upd_eq _ Hb Hp). rewrite Hm.
      assert (Hs : skipn id d = nth id d 0 :: skipn (S id) d).
      { clear -Hl. revert d Hl. induction id as [|id IH]; intros [|a d] Hl; cbn [length] in Hl; try lia; auto. cbn [nth]. rewrite (skipn_cons id a d). rewrite (IH d) by lia. reflexivity. }
      rewrite Hs. reflexivity.
    + intros q Hq. rewrite Ho by (intros H; apply Hq; now right). apply cell_upd_neq. intros E1. apply Hq. left. congruence.
Qed.
Lemma count_map {A B} (f : A -> B) (P : B -> bool) l : count P (map f l) = count (fun a => P (f a)) l.
Proof. induction l as [|a l IH]; auto. cbn [map]. rewrite !count_cons, IH. reflexivity. Qed.
Lemma count_repeat {A} (P : A -> bool) a n : count P (repeat a n) = if P a then n else 0%nat.
Proof. induction n as [|n IH]; [now destruct (P a)|]. cbn [repeat]. rewrite count_cons, IH. destruct (P a); auto. Qed.
Lemma count_permut {A} (P : A -> bool) l l' : Permutation l l' -> count P l = count P l'.
Proof. induction 1; auto; rewrite ?count_cons; try lia. Qed.

Lemma adjust_area_ok row column shuf b area m : (forall l, Permutation l (shuf l)) -> NoDup (concat area) -> Forall (inb row column) (concat area) ->
  rect row column b -> (m <= length (concat area))%nat ->
  exists b', adjust_the_area_on_board shuf b area m = Ok b' /\ rect row column b' /\
    (forall q, ~ In q (concat area) -> cell b' q = cell b q) /\ (forall q, In q (concat area) -> cell b' q = 0 \/ cell b' q = -1) /\
    count (fun q => cell b' q =? -1) (concat area) = m.
Proof.
  intros Hs Nd Hin Hb Hm. unfold adjust_the_area_on_board. set (cells := concat area) in *. rewrite usub_ok by auto. cbn [bind].
  set (l := repeat 0 (length cells - m) ++ repeat (-1) m). pose proof (Hs l) as P.
  assert (Hll : length l = length cells) by (unfold l; rewrite app_length, !repeat_length; lia).
  assert (Hld : length (shuf l) = length cells) by (rewrite <- Hll; symmetry; now apply Permutation_length).
  destruct (@lay_list row column (shuf l) cells 0%nat b) as (b' & E & Hr & Hc & Ho); auto; [lia|]. rewrite E. cbn [bind]. exists b'. split; auto. split; auto. split; auto.
  cbn [skipn] in Hc. rewrite <- Hld, firstn_all in Hc. split.
  - intros q Hq. assert (Hi : In (cell b' q) l). { eapply Permutation_in; [symmetry; exact P|]. rewrite <- Hc. now apply in_map. }
    unfold l in Hi. apply in_app_iff in Hi as [Hi|Hi]; apply repeat_spec in Hi; auto.
  - rewrite <- (count_map (cell b') (fun z => z =? -1)), Hc, <- (count_permut _ P). unfold l. rewrite count_app, !count_repeat. reflexivity.
Qed.

Lemma planned_ok xs me i : (0 < xs)%nat -> (me <= xs)%nat -> (i <= xs)%nat -> exists m, planned_mines xs me i = Ok m /\ (m <= xs)%nat.
Proof.
  intros Hx Hm Hi. unfold planned_mines.
  destruct (Nat.eqb_spec me 0) as [E|E]; cbn [orb]; [exists 0%nat; split; auto; lia|]. destruct (Nat.eqb_spec xs 0) as [E0|E0]; [lia|].
  destruct (Nat.eqb_spec me xs) as [E1|E1]; [exists me; auto|]. rewrite usub_ok by lia. cbn [bind].
  destruct (Nat.eqb_spec i (xs - 1)) as [E2|E2]; [exists 0%nat; split; auto; lia|]. destruct (Nat.eqb_spec i xs) as [E3|E3]; [exists xs; auto|].
  pose proof (Nat.div_mod i 2 ltac:(lia)) as D. pose proof (Nat.mod_upper_bound i 2 ltac:(lia)) as U.
  pose proof (Nat.div_mod (i + 1) 2 ltac:(lia)) as D1. pose proof (Nat.mod_upper_bound (i + 1) 2 ltac:(lia)) as U1.
  destruct (Nat.ltb_spec (me * 2) xs) as [L|L].
  - rewrite usub_ok by lia. cbn [bind]. destruct (Nat.ltb_spec i (me * 2 - 1)) as [L1|L1].
    + destruct (Nat.eqb_spec (i mod 2) 1); [eexists; split; [reflexivity|lia]|]. rewrite usub_ok by lia. eexists; split; [reflexivity|lia].
    + eexists; split; [reflexivity|lia].
  - rewrite usub_ok by lia. cbn [bind]. rewrite usub_ok by lia. cbn [bind]. destruct (Nat.ltb_spec i ((xs - me) * 2 - 1)) as [L1|L1].
    + destruct (Nat.eqb_spec (i mod 2) 1); [eexists; split; [reflexivity|lia]|]. rewrite usub_ok by lia. eexists; split; [reflexivity|lia].
    + rewrite usub_ok by lia. cbn [bind]. rewrite usub_ok by lia. eexists; split; [reflexivity|lia].
Qed.

Lemma unlaid_ok row column b x : rect row column b -> Forall (inb row column) x -> unlaid b x = Ok (filter (fun p => cell b p =? -10) x).
Proof.
  intros Hb Hx. unfold unlaid.
  assert (G : forall acc, foldM (fun l '(i, j) => let* v := get b i j in Ok (if v =? -10 then l ++ [(i, j)] else l)) x acc = Ok (acc ++ filter (fun p => cell b p =? -10) x)).
  { induction Hx as [|[i j] x Hp Hx IH]; intros acc; cbn [foldM filter]; [now rewrite app_nil_r|].
    rewrite (get_ok Hb Hp). cbn [bind]. rewrite IH. destruct (cell b (i, j) =? -10); [now rewrite <- app_assoc|reflexivity]. }
  apply G.
Qed.

Lemma foldM_sum {A} (F : Z -> A -> R Z) (h : A -> Z) l : (forall s a, In a l -> F s a = Ok (s + h a)) -> forall s, foldM F l s = Ok (s + sumz h l).
Proof.
  induction l as [|a l IH]; intros H s; cbn [foldM sumz]; [now rewrite Z.add_0_r|]. rewrite H by (now left). cbn [bind]. rewrite IH by (intros; apply H; now right). f_equal. lia.
Qed.
Definition with_rhs (v : placement) (B : block) : block := Blk (map (fun e => (fst e, dot (fst e) (vars B) v)) (eqs B)) (vars B).
Lemma count_mines_ok row column b bg B : rect row column b -> rect row column bg -> pre_block row column B -> (forall q, In q (vars B) -> cell bg q = 10) ->
  count_mines b bg B = Ok (with_rhs (fun p => cell b p =? -1) B).
Proof.
  intros Hb Hbg [Nd Hin Hw _ _] H10. unfold count_mines, with_rhs.
  rewrite (@mapM_ok _ _ _ (fun e => (fst e, dot (fst e) (vars B) (fun p => cell b p =? -1)))); [reflexivity|].
  intros [a s0] He. cbn [fst]. destruct (eqs B) as [|e0 es] eqn:Ee; [destruct He|]. cbn [vget nth_error bind].
  rewrite Forall_forall in Hw, Hin. destruct (Hw (a, s0)) as [Hla Hbit]; [exact He|]. destruct (Hw e0) as [Hl0 _]; [now left|]. cbn [fst] in *.
  rewrite (@foldM_sum _ _ (fun j => nth j a 0 * b2z (cell b (nth j (vars B) (0, 0)%nat) =? -1))).
  - cbn [bind]. rewrite Z.add_0_l, Hl0. do 2 f_equal. symmetry. apply dot_nth. exact Hla.
  - intros s j Hj. apply in_seq in Hj. rewrite (vget_ok 0) by lia. cbn [bind]. rewrite (vget_ok (0, 0)%nat) by lia.
    assert (Hq : In (nth j (vars B) (0, 0)%nat) (vars B)) by (apply nth_In; lia). set (q := nth j (vars B) (0, 0)%nat) in *.
    pose proof (Hbit q) as Hbq. unfold q in Hbq at 1. rewrite coef_nth in Hbq by (auto; lia).
    assert (G1 : get b (fst q) (snd q) = Ok (cell b q)) by (destruct q; apply (get_ok Hb); apply Hin; auto).
    assert (G2 : get bg (fst q) (snd q) = Ok (cell bg q)) by (destruct q; apply (get_ok Hbg); apply Hin; auto).
    destruct Hbq as [E|E]; rewrite E.
    + cbn [Z.eqb]. f_equal. lia.
    + change (1 =? 1) with true. cbn iota. cbn [bind]. rewrite G1. cbn [bind]. destruct (cell b q =? -1) eqn:Eb; cbn [b2z]; [|f_equal; lia].
      rewrite G2. cbn [bind]. rewrite (H10 q Hq). cbn [Z.eqb negb]. reflexivity.
Qed.
Lemma with_rhs_sat v B : sat v (with_rhs v B).
Proof. unfold sat, with_rhs. cbn [vars eqs]. apply Forall_map, Forall_forall. intros e He. unfold sat_eq. reflexivity. Qed.
Lemma with_rhs_pre row column v B : pre_block row column B -> pre_block row column (with_rhs v B).
Proof.
  intros [Nd Hin Hw Hc Hl]. constructor; unfold with_rhs; cbn [vars eqs]; auto.
  - apply Forall_map. eapply Forall_impl; [|exact Hw]. intros e [H1 H2]. split; auto.
  - intros q Hq. destruct (Hc q Hq) as (e & He & E). exists (fst e, dot (fst e) (vars B) v). split; auto. apply in_map_iff. eauto.
  - apply Forall_map. eapply Forall_impl; [|exact Hl]. intros e H. exact H.
Qed.

(** ** the loops with [return] *)
Lemma loop_inv {A} (f : A -> board * board * nat * nat * nat -> R step_out) (P : board -> board -> nat -> nat -> Prop) (Q : board -> bool -> Prop) l :
  (forall x b bg r rn k, In x l -> P b bg r rn -> exists o, f x (b, bg, r, rn, k) = Ok o /\ match o with Return b fl _ => Q b fl | Go b bg r rn _ => P b bg r rn end) ->
  forall b bg r rn k, P b bg r rn -> exists o, loop_until f l b bg r rn k = Ok o /\ match o with Return b fl _ => Q b fl | Go b bg r rn _ => P b bg r rn end.
Proof.
  induction l as [|x l IH]; intros H b bg r rn k HP; cbn [loop_until]; [eexists; split; [reflexivity|exact HP]|].
  destruct (H x b bg r rn k) as (o & E & Ho); [now left|auto|]. rewrite E. cbn [bind]. destruct o as [b' fl k'|b' bg' r' rn' k']; [eexists; split; [reflexivity|exact Ho]|].
  apply IH; auto. intros. apply H; auto. now right.
Qed.

(** ** one call of [adjust_step] *)
Lemma count_lt_pos (f g : pos -> bool) l x : In x l -> f x = false -> g x = true -> (forall q, In q l -> f q = true -> g q = true) -> (count f l < count g l)%nat.
Proof.
  induction l as [|a l IH]; intros Hx Hf Hg Hi; [destruct Hx|]. rewrite !count_cons.
  assert (Hle : (count f l <= count g l)%nat).
  { clear -Hi. assert (Hi' : forall q, In q l -> f q = true -> g q = true) by (intros q Hq; apply Hi; now right). clear Hi.
    induction l as [|b l IH]; auto. rewrite !count_cons. specialize (IH (fun q Hq => Hi' q (or_intror Hq))). specialize (Hi' b (or_introl eq_refl)).
    destruct (f b), (g b); try lia; discriminate (Hi' eq_refl). }
  destruct Hx as [->|Hx].
  - rewrite Hf, Hg. lia.
  - specialize (IH Hx Hf Hg (fun q Hq => Hi q (or_intror Hq))). specialize (Hi a (or_introl eq_refl)). destruct (f a), (g a); try lia; discriminate (Hi eq_refl).
Qed.
Lemma concat_filter {A} (P : A -> bool) ll : concat (map (filter P) ll) = filter P (concat ll).
Proof. induction ll as [|l ll IH]; auto. cbn [map concat]. now rewrite IH, filter_app. Qed.

Section St.
Variables (row column total : nat) (Z0 : list pos) (shuf : nat -> list Z -> list Z).
Hypothesis Hrow : (0 < row)%nat.
Hypothesis Hshuf : forall k l, Permutation l (shuf k l).

Definition nmine (b : board) : nat := count (fun q => cell b q =? -1) (positions row column).
Definition nfree (b : board) : nat := count (fun q => cell b q =? -10) (positions row column).
Record okb (b : board) : Prop := {
  ok_rect : rect row column b;
  ok_vals : forall p, inb row column p -> cell b p = 0 \/ cell b p = -1 \/ cell b p = -10;
  ok_zone : forall q, In q Z0 -> cell b q = 0
}.
Lemma okb_nonempty b : okb b -> b <> [].
Proof. intros [[H _] _ _] ->. cbn in H. lia. Qed.

(** laying [m] mines on the unlaid cells [F] *)
Lemma lay_counts b0 b F m : okb b0 -> NoDup F -> Forall (inb row column) F -> (forall q, In q F -> cell b0 q = -10) ->
  rect row column b -> (forall q, ~ In q F -> cell b q = cell b0 q) -> (forall q, In q F -> cell b q = 0 \/ cell b q = -1) ->
  count (fun q => cell b q =? -1) F = m ->
  okb b /\ nmine b = (nmine b0 + m)%nat /\ (nfree b + length F = nfree b0)%nat.
Proof.
  intros O Nd Hin H10 Hr Ho Hf Hm.
  assert (Hi : incl F (positions row column)) by (intros q Hq; apply in_positions; rewrite Forall_forall in Hin; auto).
  assert (Off : forall z, count (fun p => (cell b p =? z) && negb (mem_pos p F)) (positions row column) = count (fun p => (cell b0 p =? z) && negb (mem_pos p F)) (positions row column)).
  { intros z. apply count_ext. intros q _. destruct (mem_pos_spec q F) as [Hq|Hq]; cbn [negb]; [now rewrite !andb_false_r|]. now rewrite Ho. }
  assert (Zero : forall (f : pos -> bool), (forall q, In q F -> f q = false) -> count f F = 0%nat) by (intros f H; apply count_zero; exact H).
  split; [|split].
  - constructor; auto.
    + intros p Hp. destruct (mem_pos_spec p F) as [Hq|Hq]; [destruct (Hf p Hq); auto|]. rewrite Ho by auto. now apply (ok_vals O).
    + intros q Hq. rewrite Ho; [now apply (ok_zone O)|]. intros Hq'. specialize (H10 q Hq'). rewrite (ok_zone O) in H10 by auto. discriminate.
  - unfold nmine. rewrite (@SolvableProofs.count_split (fun q => cell b q =? -1) F), (@SolvableProofs.count_split (fun q => cell b0 q =? -1) F) by (auto; apply NoDup_positions).
    rewrite (Off (-1)), Hm. rewrite (Zero (fun q => cell b0 q =? -1)); [lia|]. intros q Hq. now rewrite H10.
  - unfold nfree. rewrite (@SolvableProofs.count_split (fun q => cell b q =? -10) F), (@SolvableProofs.count_split (fun q => cell b0 q =? -10) F) by (auto; apply NoDup_positions).
    rewrite (Off (-10)). rewrite (Zero (fun q => cell b q =? -10)); [|intros q Hq; destruct (Hf q Hq) as [E|E]; now rewrite E].
    assert (Hall : count (fun q => cell b0 q =? -10) F = length F).
    { clear -H10. induction F as [|a F IH]; auto. rewrite count_cons, (H10 a) by (now left). cbn [length]. rewrite IH by (intros; apply H10; now right). reflexivity. }
    lia.
Qed.

Theorem adjust_step_ok fuel : forall board0 bog plan r0 rn0 k, okb board0 -> rect row column bog -> (forall q, inb row column q -> 0 <= cell bog q) ->
  Forall (inb row column) plan -> (nmine board0 + r0 = total)%nat -> nfree board0 = (r0 + rn0)%nat -> (c10 row column bog < fuel)%nat ->
  exists b fl k', adjust_step fuel shuf board0 bog plan r0 rn0 k = Ok (b, fl, k') /\
    (fl = true -> okb b /\ (total <= nmine b + nfree b)%nat).
Proof.
  induction fuel as [|fuel IH]; intros board0 bog plan r0 rn0 k O0 Hbog Hpos Hplan HM HU Hf; [lia|]. cbn [adjust_step].
  destruct (@fill_ok row column 1 plan Hplan bog Hbog) as (bg1 & Ef & Hbg1 & C1). rewrite Ef. cbn [bind].
  assert (Hpos1 : forall q, inb row column q -> 0 <= cell bg1 q) by (intros q Hq; rewrite C1; destruct (mem_pos q plan); [lia|auto]).
  destruct (refresh_groups Hbg1 Hrow Hpos1) as (ses & Es & Hpre & Hne & Nd & Hfc & _ & _). rewrite Es. cbn [bind].
  destruct ses as [|grp ses]; [exists [], false, k; split; [reflexivity|discriminate]|].
  assert (Hgrp : In grp (grp :: ses)) by now left.
  assert (Hpg : Forall (pre_block row column) grp) by (inversion Hpre; auto). assert (Hgne : grp <> []) by (inversion Hne; auto).
  assert (Ndg : NoDup (concat (map vars grp))) by now apply (NoDup_group Hgrp).
  assert (Hgfc : forall q, In q (concat (map vars grp)) -> inb row column q /\ cell bg1 q = 10 /\ cell bog q = 10).
  { intros q Hq. assert (Hf1 : front_cell row column bg1 q).
    { apply Hfc. apply in_vars in Hq as (B & HB & HqB). apply in_vars. exists B. split; auto. now apply (In_group Hgrp). }
    destruct Hf1 as (A1 & A2 & _). split; auto. split; auto. rewrite C1 in A2. destruct (mem_pos q plan); [discriminate|auto]. }
  rewrite (@mapM_ok _ _ _ (fun B => filter (fun p => cell board0 p =? -10) (vars B))).
  2:{ intros B HB. apply (@unlaid_ok row column); [apply O0|]. rewrite Forall_forall in Hpg. apply (Hpg B HB). }
  cbn [bind]. set (front := map (fun B => filter (fun p => cell board0 p =? -10) (vars B)) grp).
  set (F := concat front).
  assert (EF : F = filter (fun p => cell board0 p =? -10) (concat (map vars grp))) by (unfold F, front; rewrite <- concat_filter, map_map; reflexivity).
  assert (NdF : NoDup F) by (rewrite EF; now apply NoDup_filter).
  assert (HF : forall q, In q F -> In q (concat (map vars grp)) /\ cell board0 q = -10) by (intros q Hq; rewrite EF in Hq; apply filter_In in Hq as [H1 H2]; split; auto; now apply Z.eqb_eq).
  assert (HFin : Forall (inb row column) F) by (apply Forall_forall; intros q Hq; destruct (HF q Hq) as [H1 _]; now apply Hgfc).
  rewrite (vget_ok []) by (unfold front; rewrite map_length; destruct grp; [contradiction|cbn [length]; lia]). cbn [bind].
  destruct (nth 0 front []) as [|f0 fs] eqn:E0.
  { destruct (Nat.ltb_spec 0 rn0) as [L|L]; [exists [], false, k; split; [reflexivity|discriminate]|].
    exists board0, true, k. split; auto. intros _. split; auto. lia. }
  assert (Hxs : (0 < length F)%nat).
  { unfold F. destruct front as [|f1 fr]; [discriminate|]. cbn [nth] in E0. subst f1. cbn [concat app length]. lia. }
  change (concat front) with F. set (xs := length F) in *. set (me := (xs * r0 / (rn0 + r0))%nat).
  assert (Hme : (me <= xs)%nat).
  { unfold me. destruct (Nat.eq_dec (rn0 + r0) 0) as [Ez|Ez]; [rewrite Ez; cbn; lia|]. apply Nat.div_le_upper_bound; auto. nia. }
  set (P := fun b bg r rn => rect row column b /\ (forall q, ~ In q F -> cell b q = cell board0 q) /\ (bg = bg1 \/ bg = bog) /\ r = r0 /\ rn = rn0).
  set (Q := fun (b : board) (fl : bool) => fl = true /\ okb b /\ (total <= nmine b + nfree b)%nat).
  match goal with |- context [loop_until ?f ?l ?w1 ?w2 ?w3 ?w4 ?w5] => destruct (fun H => @loop_inv _ f P Q l H w1 w2 w3 w4 w5) as (o & Eo & Ho) end.
  2:{ split; [apply O0|]. auto. }
  2:{ rewrite Eo. cbn [bind]. destruct o as [b fl k'|b bg r rn k']; [exists b, fl, k'; split; auto; intros _; apply Ho|exists [], false, k'; split; auto; discriminate]. }
  intros i b bg r rn k1 Hi HP. apply in_seq in Hi.
  destruct (@planned_ok xs me i) as (m & Em & Hm); auto; [lia|]. rewrite Em. cbn [bind]. rewrite usub_ok by auto. cbn [bind].
  destruct ((r <? m)%nat || (rn <? xs - m)%nat) eqn:Eskip; [eexists; split; [reflexivity|exact HP]|].
  apply orb_false_iff in Eskip as [L1 L2]. apply Nat.ltb_ge in L1, L2.
  assert (Hr0 : r = r0 /\ rn = rn0) by (unfold P in HP; tauto). destruct Hr0 as [-> ->].
  apply loop_inv; [|exact HP]. clear b bg k1 HP. intros u b bg r rn k1 _ (Hb & Hoff & Hbg & -> & ->).
  assert (Hbgr : rect row column bg) by (destruct Hbg; subst; auto).
  assert (Hbg0 : forall q, inb row column q -> 0 <= cell bg q) by (destruct Hbg; subst; auto).
  assert (Hbgv : forall q, In q (concat (map vars grp)) -> cell bg q = 10) by (intros q Hq; destruct (Hgfc q Hq) as (_ & A & B); destruct Hbg; subst; auto).
  assert (Hbgs : forall q, cell bg q = 10 -> cell bog q = 10) by (intros q Hq; destruct Hbg; subst; auto; rewrite C1 in Hq; destruct (mem_pos q plan); [discriminate|auto]).
  destruct (@adjust_area_ok row column (shuf k1) b front m) as (b1 & E1 & Hb1 & Ho1 & Hv1 & Hc1); auto.
  fold F in Ho1, Hv1, Hc1. rewrite E1. cbn [bind].
  destruct (@lay_counts board0 b1 F m) as (O1 & N1 & U1); auto; [intros q Hq; now apply HF|intros q Hq; rewrite Ho1, Hoff; auto|].
  set (v := fun p => cell b1 p =? -1).
  rewrite (@mapM_ok _ _ _ (with_rhs v)).
  2:{ intros B HB. apply (@count_mines_ok row column); auto; [rewrite Forall_forall in Hpg; auto|]. intros q Hq. apply Hbgv. apply in_vars. eauto. }
  cbn [bind]. set (bl := map (with_rhs v) grp).
  assert (Evars : map vars bl = map vars grp) by (unfold bl; rewrite map_map; reflexivity).
  destruct (@engines_ok row column v bl bg) as (bl1 & n1 & i1 & bd1 & bl2 & n2 & i2 & bd2 & n3 & i3 & G1 & G2 & G3 & D1 & D2 & M1 & M2 & S3 & T3 & _); auto.
  { unfold bl. apply Forall_map. eapply Forall_impl; [|exact Hpg]. intros B. apply with_rhs_pre. }
  { now rewrite Evars. }
  { unfold bl, sats. apply Forall_map, Forall_forall. intros B _. apply with_rhs_sat. }
  unfold get_all_not_and_is_mine_on_board. rewrite G1. cbn [unwrap bind]. rewrite G2. cbn [unwrap bind]. rewrite G3. cbn [bind].
  set (n := n1 ++ n2 ++ n3). set (im := i1 ++ i2 ++ i3).
  assert (P1 : forall p, In p (n1 ++ i1 ++ concat (map vars bl1)) -> In p (concat (map vars grp))) by (intros p; rewrite <- Evars; apply Permutation_in; symmetry; apply (dd_perm D1)).
  assert (P2 : forall p, In p (n2 ++ i2 ++ concat (map vars bl2)) -> In p (concat (map vars bl1))) by (intros p; apply Permutation_in; symmetry; apply (dd_perm D2)).
  assert (Hn : forall p, In p n -> In p (concat (map vars grp))).
  { intros p Hp. unfold n in Hp. rewrite !in_app_iff in Hp. apply P1. rewrite !in_app_iff. destruct Hp as [Hp|[Hp|Hp]]; auto; right; right; apply P2; rewrite !in_app_iff; auto. right; right. now apply S3. }
  assert (Him : forall p, In p im -> In p (concat (map vars grp))).
  { intros p Hp. unfold im in Hp. rewrite !in_app_iff in Hp. apply P1. rewrite !in_app_iff. destruct Hp as [Hp|[Hp|Hp]]; auto; right; right; apply P2; rewrite !in_app_iff; auto. right; right. now apply T3. }
  assert (Hnin : Forall (inb row column) n) by (apply Forall_forall; intros q Hq; now apply Hgfc, Hn).
  assert (Hiin : Forall (inb row column) im) by (apply Forall_forall; intros q Hq; now apply Hgfc, Him).
  destruct (@fill_ok row column 10 im Hiin bd2 (mk_rect M2)) as (bg2 & Ef2 & Hbg2 & C2). rewrite Ef2. cbn [bind].
  assert (Cbd : forall q, ~ In q im -> ~ In q n -> cell bd2 q = cell bg q).
  { intros q Q1 Q2. rewrite (mk_cell M2), (mk_cell M1). unfold im, n in *. rewrite !in_app_iff in *. rewrite !mem_false by tauto. reflexivity. }
  assert (Enil : n = [] -> bg2 = bg).
  { intros En. apply (board_ext Hbg2 Hbgr). intros q Hq. rewrite C2. destruct (mem_pos_spec q im) as [Hq'|Hq']; [symmetry; auto|]. apply Cbd; auto. rewrite En. intros []. }
  destruct n as [|n0 ns] eqn:En.
  { eexists. split; [reflexivity|]. rewrite Enil by auto. split; auto. split; [|auto]. intros q Hq. rewrite Ho1, Hoff; auto. }
  rewrite <- En in *. clear Enil.
  destruct (@fill_ok row column 1 n Hnin bg2 Hbg2) as (bg3 & Ef3 & Hbg3 & C3). rewrite Ef3. cbn [bind].
  destruct (@fill_ok row column 11 im Hiin bg3 Hbg3) as (bg4 & Ef4 & Hbg4 & C4). rewrite Ef4. cbn [bind].
  destruct (Nat.leb_spec rn0 (length n)) as [L|L].
  { eexists. split; [reflexivity|]. split; auto. split; auto. fold xs in U1. lia. }
  rewrite !usub_ok by auto. cbn [bind].
  assert (C5 : forall q, cell bg4 q = if mem_pos q im then 11 else if mem_pos q n then 1 else cell bg q).
  { intros q. rewrite C4. destruct (mem_pos_spec q im) as [Hq|Hq]; auto. rewrite C3. destruct (mem_pos_spec q n) as [Hq2|Hq2]; auto. rewrite C2, mem_false by auto. now apply Cbd. }
  destruct (IH b1 bg4 n (r0 - m)%nat (rn0 - (xs - m))%nat (S k1)) as (b' & fl & k' & E' & H'); auto.
  - intros q Hq. rewrite C5. destruct (mem_pos q im), (mem_pos q n); try lia; auto.
  - lia.
  - fold xs in U1. lia.
  - assert (Hn0 : In n0 n) by (rewrite En; now left). assert (c10 row column bg4 < c10 row column bog)%nat; [|lia].
    unfold c10. apply (@count_lt_pos _ _ _ n0).
    + apply in_positions. now apply Hgfc, Hn.
    + rewrite C5. rewrite (@mem_true n0 n) by auto. destruct (mem_pos n0 im); reflexivity.
    + apply Z.eqb_eq. apply Hgfc. auto.
    + intros q _ Hq. apply Z.eqb_eq in Hq. apply Z.eqb_eq. rewrite C5 in Hq. destruct (mem_pos q im); [discriminate|]. destruct (mem_pos q n); [discriminate|auto].
  - rewrite E'. cbn [bind]. destruct fl.
    + destruct (H' eq_refl) as [O' T']. destruct b' as [|x b']; [exfalso; now apply (okb_nonempty O')|]. eexists. split; [reflexivity|]. split; auto.
    + eexists. split; [reflexivity|]. split; [apply O0|]. auto.
Qed.
End St.
