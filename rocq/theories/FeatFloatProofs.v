(** * FeatFloatProofs: the lemmas of FeatProofs.v for the analyses with f64 probabilities. *)
From Flocq Require Import IEEE754.BinarySingleNaN IEEE754.Binary IEEE754.Bits.
From Verif Require Import Base Spec BaseFacts MineBoard Matrix Solve BoardCache StoreProofs Utils Possibility Evf BaseVideo Features FeatProofs BigNum PossFloat OpenFloat FeatFloat.
Open Scope Z_scope.

(** ** The stored boards with what has been computed about them *)
Definition ok_pb_f (g0 : gboard) (pb : pboard_f) : Prop :=
  pb = PBoard_f g0 None \/
  exists s, gb_mark g0 = Ok s /\ (pb = PBoard_f s None \/ exists P, get_poss_f (PBoard_f g0 None) = Ok (P, PBoard_f s (Some P)) /\ pb = PBoard_f s (Some P)).
Definition boards_f (v : bv) (gs : list pboard_f) : Prop := Forall2 ok_pb_f (b_stream v) gs.

Lemma ok_pb_board_f g0 pb : ok_pb_f g0 pb -> gb_board (pb_g_f pb) = gb_board g0.
Proof. intros [->|(s & E & [->|(P & _ & ->)])]; cbn; auto; now apply mark_board. Qed.

(** the answers, from the stored board alone *)
Definition pure_poss_f (v : bv) (id : nat) (p : pos) : R binary64 :=
  let* g := vget (b_stream v) id in
  let* (t, _) := get_poss_f (PBoard_f g None) in
  get t (fst p) (snd p).

Lemma boards_get_f v gs id : boards_f v gs ->
  (exists g0 pb, nth_error (b_stream v) id = Some g0 /\ nth_error gs id = Some pb /\ ok_pb_f g0 pb) \/
  (nth_error (b_stream v) id = None /\ nth_error gs id = None).
Proof.
  unfold boards_f. revert id. generalize (b_stream v) as st. intros st id H. revert id. induction H as [|g0 pb st gs Hp H IH]; intros [|id]; cbn [nth_error]; auto.
  left. exists g0, pb. auto.
Qed.
Lemma boards_set_f v gs id g0 pb : boards_f v gs -> nth_error (b_stream v) id = Some g0 -> ok_pb_f g0 pb -> boards_f v (upd_nth gs id pb).
Proof.
  unfold boards_f. generalize (b_stream v) as st. intros st H. revert id. induction H as [|g1 p1 st gs Hp H IH]; intros [|id] E Hpb; try discriminate E; cbn in *.
  - injection E as ->. constructor; auto.
  - constructor; eauto.
Qed.
Lemma boards_len_f v gs : boards_f v gs -> length gs = length (b_stream v).
Proof. unfold boards_f. intros H. induction H; cbn; auto. Qed.
Lemma boards_start_f v : boards_f v (fst (fstart_f v)).
Proof. unfold boards_f, fstart_f. cbn [fst]. induction (b_stream v); constructor; auto. now left. Qed.

Lemma ask_list_eq_f v gs id q : boards_f v gs -> exists gs', boards_f v gs' /\
  ask_list_f gs id q = (let* l := pure_list v id q in Ok (l, gs')).
Proof.
  intros H. unfold ask_list_f, pure_list, vget. destruct (boards_get_f id H) as [(g0 & pb & E0 & E1 & Hp)|[E0 E1]]; rewrite E0, E1; cbn [bind].
  2: exists gs; auto.
  assert (Hlen : (id < length gs)%nat) by (apply nth_error_Some; congruence).
  unfold get_list_f, gask.
  destruct Hp as [->|(s & Es & Hp)]; cbn [pb_g_f pb_poss_f].
  - destruct (gb_mark g0) as [s| | |] eqn:Es; cbn [bind]; try (exists gs; auto; fail).
    exists (upd_nth gs id (PBoard_f s None)). split; [eapply boards_set_f; eauto; right; eauto|]. rewrite (vset_ok _ Hlen). cbn [bind]. destruct q; reflexivity.
  - rewrite Es. cbn [bind]. assert (E : gb_mark (pb_g_f pb) = Ok s) by (destruct Hp as [->|(P & _ & ->)]; cbn; eapply mark_marked; eauto).
    rewrite E. cbn [bind]. exists (upd_nth gs id (PBoard_f s (pb_poss_f pb))). split.
    + eapply boards_set_f; eauto. right. exists s. split; auto. destruct Hp as [->|(P & EP & ->)]; cbn [pb_poss_f]; eauto.
    + rewrite (vset_ok _ Hlen). cbn [bind]. destruct q; reflexivity.
Qed.
Lemma ask_poss_eq_f v gs id p : boards_f v gs -> exists gs', boards_f v gs' /\
  ask_poss_f gs id p = (let* a := pure_poss_f v id p in Ok (a, gs')).
Proof.
  intros H. unfold ask_poss_f, pure_poss_f, vget. destruct (boards_get_f id H) as [(g0 & pb & E0 & E1 & Hp)|[E0 E1]]; rewrite E0, E1; cbn [bind].
  2: exists gs; auto.
  assert (Hlen : (id < length gs)%nat) by (apply nth_error_Some; congruence).
  assert (K : forall P s, gb_mark g0 = Ok s -> get_poss_f (PBoard_f g0 None) = Ok (P, PBoard_f s (Some P)) ->
     get_poss_f pb = Ok (P, PBoard_f s (Some P)) -> exists gs', boards_f v gs' /\
       (let* (t, g) := get_poss_f pb in let* gs := vset gs id g in let* a := get t (fst p) (snd p) in Ok (a, gs)) =
       (let* a := (let* (t, _) := get_poss_f (PBoard_f g0 None) in get t (fst p) (snd p)) in Ok (a, gs'))).
  { intros P s Es Eg Ep. rewrite Ep, Eg. cbn [bind]. rewrite (vset_ok _ Hlen). cbn [bind]. eexists. split; [|reflexivity].
    eapply boards_set_f; eauto. right. exists s. split; auto. right. exists P. auto. }
  assert (D : (exists P s, gb_mark g0 = Ok s /\ get_poss_f (PBoard_f g0 None) = Ok (P, PBoard_f s (Some P)) /\ get_poss_f pb = Ok (P, PBoard_f s (Some P))) \/
     (exists (e : forall A : Type, R A), get_poss_f (PBoard_f g0 None) = e _ /\ get_poss_f pb = e _ /\ forall A B (k : A -> R B), bind (e A) k = e B)).
  { unfold get_poss_f. cbn [pb_g_f pb_poss_f]. destruct Hp as [->|(s & Es & Hp)]; cbn [pb_g_f pb_poss_f].
    - destruct (gb_mark g0) as [s|e| |] eqn:Es; cbn [bind].
      + destruct (unwrap (possibility_onboard_f64 (gb_marked s) (f_of (gb_minenum s)))) as [[P x]|e| |] eqn:Eu; cbn [bind];
          [left; exists P, s; auto|right; exists (fun _ => Err e); auto|right; exists (fun _ => Panic); auto|right; exists (fun _ => OutOfFuel); auto].
      + right. exists (fun _ => Err e). auto.
      + right. exists (fun _ => Panic). auto.
      + right. exists (fun _ => OutOfFuel). auto.
    - rewrite Es. cbn [bind]. destruct Hp as [->|(P & EP & ->)]; cbn [pb_g_f pb_poss_f].
      + rewrite (mark_marked Es). cbn [bind].
        destruct (unwrap (possibility_onboard_f64 (gb_marked s) (f_of (gb_minenum s)))) as [[P x]|e| |] eqn:Eu; cbn [bind];
          [left; exists P, s; auto|right; exists (fun _ => Err e); auto|right; exists (fun _ => Panic); auto|right; exists (fun _ => OutOfFuel); auto].
      + left. exists P, s. split; auto. split; auto. unfold get_poss_f in EP. cbn [pb_g_f pb_poss_f] in EP. rewrite Es in EP. cbn [bind] in EP. exact EP. }
  destruct D as [(P & s & Es & Eg & Ep)|(e & Eg & Ep & Hb)]; [eauto|].
  exists gs. split; auto. rewrite Eg, Ep, !Hb. reflexivity.
Qed.

(** ** Comments *)
(** event [i] gets the comments [cs] in addition *)
Definition note_f (cm : list (list comment_f)) (i : nat) (cs : list comment_f) : list (list comment_f) :=
  upd_nth cm i (nth i cm [] ++ cs).
Lemma note_len_f cm i cs : length (note_f cm i cs) = length cm.
Proof. apply length_upd_nth. Qed.
Lemma note_nil_f cm i : (i < length cm)%nat -> note_f cm i [] = cm.
Proof. intros H. unfold note_f. rewrite app_nil_r. now apply upd_same. Qed.
Lemma say_note_f cm i c : (i < length cm)%nat -> say_f cm i c = Ok (note_f cm i [c]).
Proof. intros H. unfold say_f, note_f. rewrite (vget_ok [] H). cbn [bind]. now rewrite (vset_ok _ H). Qed.
Lemma note_nth_f cm i cs j d : (i < length cm)%nat -> nth j (note_f cm i cs) d = if (i =? j)%nat then nth j cm d ++ cs else nth j cm d.
Proof.
  intros H. unfold note_f. destruct (Nat.eqb_spec i j) as [<-|Hne]; [|now apply nth_upd_nth_neq].
  rewrite nth_upd_nth_eq by auto. f_equal. now apply nth_indep.
Qed.
(** a pass over the events [is]: event [i] gets the comments [new i] *)
Definition notes_f (new : nat -> R (list comment_f)) (is : list nat) (cm : list (list comment_f)) : R (list (list comment_f)) :=
  foldM (fun cm i => let* c := new i in Ok (note_f cm i c)) is cm.
Lemma pass_eq_f (v : bv) (step : fstate_f -> nat -> R fstate_f) new is n :
  (forall gs cm i, In i is -> boards_f v gs -> length cm = n -> exists gs', boards_f v gs' /\ step (gs, cm) i = (let* c := new i in Ok (gs', note_f cm i c))) ->
  forall gs cm, boards_f v gs -> length cm = n -> exists gs', boards_f v gs' /\ foldM step is (gs, cm) = (let* cm' := notes_f new is cm in Ok (gs', cm')).
Proof.
  unfold notes_f. induction is as [|i is IH]; intros Hs gs cm Hg Hc; cbn [foldM bind]; [exists gs; auto|].
  destruct (Hs gs cm i (or_introl eq_refl) Hg Hc) as (g1 & Hg1 & ->). destruct (new i) as [c| | |]; cbn [bind]; try (exists gs; auto; fail).
  apply IH; auto. { intros gs' cm' j Hj. apply Hs. now right. } now rewrite note_len_f.
Qed.
(** the comments [cm'] are [cm] with [new i] appended for event [i] *)
Lemma notes_ok_f new cs is cm : NoDup is -> (forall i, In i is -> (i < length cm)%nat /\ new i = Ok (cs i)) ->
  exists cm', notes_f new is cm = Ok cm' /\ length cm' = length cm /\
    forall i, nth i cm' [] = nth i cm [] ++ (if existsb (Nat.eqb i) is then cs i else []).
Proof.
  unfold notes_f. revert cm. induction is as [|i is IH]; intros cm Nd H; cbn [foldM].
  - exists cm. split; auto. split; auto. intros i. cbn. now rewrite app_nil_r.
  - apply NoDup_cons_iff in Nd as [Hi Nd]. destruct (H i (or_introl eq_refl)) as [Hl ->]. cbn [bind].
    destruct (IH (note_f cm i (cs i)) Nd) as (cm' & E & L & Hc). { intros j Hj. rewrite note_len_f. apply H. now right. }
    exists cm'. split; auto. split; [now rewrite L, note_len_f|]. intros j. rewrite Hc, note_nth_f by auto. cbn [existsb].
    destruct (Nat.eqb_spec j i) as [->|Hne].
    + rewrite Nat.eqb_refl. replace (existsb (Nat.eqb i) is) with false; [cbn [orb]; now rewrite app_nil_r|].
      symmetry. apply not_true_is_false. intros X. apply existsb_exists in X as (k & Hk & Ek). apply Nat.eqb_eq in Ek. congruence.
    + destruct (Nat.eqb_spec i j); [congruence|]. reflexivity.
Qed.
Lemma notes_inv_f new is cm cm' : notes_f new is cm = Ok cm' -> forall i, In i is -> exists c, new i = Ok c.
Proof.
  unfold notes_f. revert cm. induction is as [|i is IH]; intros cm E j Hj; [destruct Hj|]. cbn [foldM] in E. apply bind_ok in E as (c1 & E1 & E). apply bind_ok in E1 as (c & Ec & E1).
  destruct Hj as [<-|Hj]; eauto.
Qed.
(** one sequence of new comments serves every run *)
Lemma notes_rows_f new is cm cm' : NoDup is -> (forall i, In i is -> (i < length cm)%nat) -> notes_f new is cm = Ok cm' ->
  length cm' = length cm /\ exists cs, (forall i, In i is -> new i = Ok (cs i)) /\
    forall i, nth i cm' [] = nth i cm [] ++ (if existsb (Nat.eqb i) is then cs i else []).
Proof.
  intros Nd Hl E. set (cs := fun i => match new i with Ok c => c | _ => [] end).
  assert (Hcs : forall i, In i is -> new i = Ok (cs i)) by (intros i Hi; destruct (notes_inv_f E Hi) as (c & Ec); unfold cs; now rewrite Ec).
  destruct (@notes_ok_f new cs is cm Nd) as (cm1 & E1 & L & H). { intros i Hi. auto. } rewrite E in E1. injection E1 as <-. eauto 6.
Qed.

(** ** The events *)

Ltac fin gs := try (exists gs; split; [assumption|reflexivity]).

Definition risk_new_f (v : bv) (i : nat) : R (list comment_f) :=
  let* r := vget (b_rec v) i in
  let* q := place v r in
  if (2 <=? r_useful r)%nat then let* p := pure_poss_f v (r_prior r) q in Ok (if at_least_51_f p then [FRisky (fsub f_one p)] else []) else Ok [].
Lemma risk_eq_f v gs cm : boards_f v gs -> length cm = length (b_rec v) -> exists gs', boards_f v gs' /\
  high_risk_guess_f v (gs, cm) = (let* cm' := notes_f (risk_new_f v) (rng 2 (length (b_rec v))) cm in Ok (gs', cm')).
Proof.
  intros Hg Hc. unfold high_risk_guess_f. revert gs cm Hg Hc. apply pass_eq_f. intros gs cm i Hi Hg Hc. apply rng_lt in Hi.
  unfold risk_new_f. destruct (vget (b_rec v) i) as [r| | |]; cbn [bind]; fin gs. destruct (place v r) as [q| | |]; cbn [bind]; fin gs.
  destruct (2 <=? r_useful r)%nat; [|exists gs; split; auto; cbn [bind]; now rewrite note_nil_f by lia].
  destruct (ask_poss_eq_f (r_prior r) q Hg) as (gs' & Hg' & ->). exists gs'. split; auto. destruct (pure_poss_f v (r_prior r) q) as [p| | |]; cbn [bind]; auto.
  destruct (at_least_51_f p); [rewrite say_note_f by lia; reflexivity|now rewrite note_nil_f by lia].
Qed.

Definition pure_only_f (v : bv) (id : nat) (q1 q2 : gquery) (q : pos) : R bool :=
  let* l := pure_list v id q1 in if mem_pos q l then Ok false else let* l := pure_list v id q2 in Ok (mem_pos q l).
Lemma only_eq_f v gs id q1 q2 q : boards_f v gs -> exists gs', boards_f v gs' /\ only_by_f gs id q1 q2 q = (let* b := pure_only_f v id q1 q2 q in Ok (b, gs')).
Proof.
  intros Hg. unfold only_by_f, pure_only_f. destruct (ask_list_eq_f id q1 Hg) as (g1 & Hg1 & ->). destruct (pure_list v id q1) as [l| | |]; cbn [bind]; fin gs.
  destruct (mem_pos q l); cbn [bind]; [exists g1; auto|]. destruct (ask_list_eq_f id q2 Hg1) as (g2 & Hg2 & ->). destruct (pure_list v id q2) as [l2| | |]; cbn [bind]; fin gs.
  exists g2. auto.
Qed.
Definition jump_new_f (v : bv) (i : nat) : R (list comment_f) :=
  let* r := vget (b_rec v) i in
  let* q := place v r in
  if (2 <=? r_useful r)%nat && event_eqb (r_mouse r) e_lr then
    let* b := pure_only_f v (r_prior r) Gbasic_not Genum_not q in Ok (if b : bool then [FSay HardLeft] else [])
  else if (r_useful r =? 1)%nat && event_eqb (r_mouse r) e_rc then
    let* b := pure_only_f v (r_prior r) Gbasic_is Genum_is q in Ok (if b : bool then [FSay HardFlag] else [])
  else Ok [].
Lemma jump_eq_f v gs cm : boards_f v gs -> length cm = length (b_rec v) -> exists gs', boards_f v gs' /\
  jump_judge_f v (gs, cm) = (let* cm' := notes_f (jump_new_f v) (rng 2 (length (b_rec v))) cm in Ok (gs', cm')).
Proof.
  intros Hg Hc. unfold jump_judge_f. revert gs cm Hg Hc. apply pass_eq_f. intros gs cm i Hi Hg Hc. apply rng_lt in Hi.
  unfold jump_new_f. destruct (vget (b_rec v) i) as [r| | |]; cbn [bind]; fin gs. destruct (place v r) as [q| | |]; cbn [bind]; fin gs.
  destruct (_ && _).
  - destruct (only_eq_f (r_prior r) Gbasic_not Genum_not q Hg) as (gs' & Hg' & ->). exists gs'. split; auto. destruct (pure_only_f _ _ _ _ _) as [[]| | |]; cbn [bind]; auto.
    + rewrite say_note_f by lia. reflexivity.
    + now rewrite note_nil_f by lia.
  - destruct (_ && _).
    + destruct (only_eq_f (r_prior r) Gbasic_is Genum_is q Hg) as (gs' & Hg' & ->). exists gs'. split; auto. destruct (pure_only_f _ _ _ _ _) as [[]| | |]; cbn [bind]; auto.
      * rewrite say_note_f by lia. reflexivity.
      * now rewrite note_nil_f by lia.
    + exists gs. split; auto. cbn [bind]. now rewrite note_nil_f by lia.
Qed.

Definition needless_new_f (v : bv) (i : nat) : R (list comment_f) :=
  let* r := vget (b_rec v) i in
  if (2 <=? r_useful r)%nat && event_eqb (r_mouse r) e_lr then
    let* q := place v r in
    let* p := pure_poss_f v (r_prior r) q in
    if positive_f p then
      let* l := pure_list v (r_prior r) Gbasic_not in
      if mem_pos q l then Ok []
      else let* l := pure_list v (r_prior r) Genum_not in Ok (if mem_pos q l then [] else [FSay Needless])
    else Ok []
  else Ok [].
Lemma needless_eq_f v gs cm : boards_f v gs -> length cm = length (b_rec v) -> exists gs', boards_f v gs' /\
  needless_guess_f v (gs, cm) = (let* cm' := notes_f (needless_new_f v) (rng 2 (length (b_rec v))) cm in Ok (gs', cm')).
Proof.
  intros Hg Hc. unfold needless_guess_f. revert gs cm Hg Hc. apply pass_eq_f. intros gs cm i Hi Hg Hc. apply rng_lt in Hi.
  unfold needless_new_f. destruct (vget (b_rec v) i) as [r| | |]; cbn [bind]; fin gs.
  destruct (_ && _); [|exists gs; split; auto; cbn [bind]; now rewrite note_nil_f by lia]. destruct (place v r) as [q| | |]; cbn [bind]; fin gs.
  destruct (ask_poss_eq_f (r_prior r) q Hg) as (g1 & Hg1 & ->). destruct (pure_poss_f v (r_prior r) q) as [p| | |]; cbn [bind]; fin gs.
  destruct (positive_f p); [|exists g1; split; auto; cbn [bind]; now rewrite note_nil_f by lia].
  destruct (ask_list_eq_f (r_prior r) Gbasic_not Hg1) as (g2 & Hg2 & ->). destruct (pure_list v (r_prior r) Gbasic_not) as [l| | |]; cbn [bind]; fin gs.
  destruct (mem_pos q l); [exists g2; split; auto; cbn [bind]; now rewrite note_nil_f by lia|].
  destruct (ask_list_eq_f (r_prior r) Genum_not Hg2) as (g3 & Hg3 & ->). destruct (pure_list v (r_prior r) Genum_not) as [l'| | |]; cbn [bind]; fin gs.
  exists g3. split; auto. destruct (mem_pos q l'); [now rewrite note_nil_f by lia|rewrite say_note_f by lia; reflexivity].
Qed.

(** ** analyse_vision_transfer *)
(** what event [i] adds to the comments of event [last_click i] *)
Definition vision_new_f (v : bv) (i : nat) : R (list comment_f) :=
  let* r := vget (b_rec v) i in
  if (2 <=? r_useful r)%nat then
    let* rl := vget (b_rec v) (last_click (b_rec v) i) in
    let* l := place v rl in
    let* cs := (if 12544 <=? (r_y rl - r_y r) * (r_y rl - r_y r) + (r_x rl - r_x r) * (r_x rl - r_x r) then
        let* l1 := pure_list v (r_prior r) Gbasic_not in
        let* l2 := pure_list v (r_prior r) Genum_not in
        Ok (if existsb (close_to l) l1 || existsb (close_to l) l2 then [FSay Vision] else [])
      else Ok []) in
    let* _ := place v r in
    Ok cs
  else Ok [].
Definition vision_notes_f (v : bv) (is : list nat) (cm : list (list comment_f)) : R (list (list comment_f)) :=
  foldM (fun cm i => let* c := vision_new_f v i in Ok (note_f cm (last_click (b_rec v) i) c)) is cm.
Lemma vision_fold_f v : forall n i gs cm rl l, (i + n <= length (b_rec v))%nat -> boards_f v gs -> length cm = length (b_rec v) ->
  nth_error (b_rec v) (last_click (b_rec v) i) = Some rl -> place v rl = Ok l ->
  exists gs', boards_f v gs' /\
    (let* (_, _, _, st) := foldM (vision_event_f v) (seq i n) ((r_x rl, r_y rl), l, last_click (b_rec v) i, (gs, cm)) in Ok st) =
    (let* cm' := vision_notes_f v (seq i n) cm in Ok (gs', cm')).
Proof.
  unfold vision_notes_f. induction n as [|n IH]; intros i gs cm rl l Hi Hg Hc Er El; cbn [seq foldM bind]; [exists gs; auto|].
  assert (Hlt : (last_click (b_rec v) i < length cm)%nat) by (rewrite Hc; apply nth_error_Some; congruence).
  destruct (vget_case (b_rec v) i) as [(r & E & E')|[E _]]; [|apply nth_error_None in E; lia].
  set (F := foldM (vision_event_f v) (seq (S i) n)). set (F2 := foldM (fun cm i => let* c := vision_new_f v i in Ok (note_f cm (last_click (b_rec v) i) c)) (seq (S i) n)).
  unfold vision_event_f, vision_new_f. subst F F2. rewrite E'. cbn [bind].
  assert (EL : last_click (b_rec v) (S i) = if (2 <=? r_useful r)%nat then i else last_click (b_rec v) i) by (cbn [last_click]; now rewrite E).
  destruct (2 <=? r_useful r)%nat.
  2:{ cbn [bind]. rewrite note_nil_f by auto. specialize (IH (S i) gs cm rl l). rewrite EL in IH. apply IH; auto. lia. }
  unfold vget at 1. rewrite Er. cbn [bind]. rewrite El. cbn [bind].
  assert (Cont : forall gs cs, boards_f v gs -> exists gs', boards_f v gs' /\
     (let* (_, _, _, st) := (let* s' := (let* q := place v r in Ok ((r_x r, r_y r), q, i, (gs, note_f cm (last_click (b_rec v) i) cs))) in foldM (vision_event_f v) (seq (S i) n) s') in Ok st) =
     (let* cm' := (let* s' := (let* _ := place v r in Ok (note_f cm (last_click (b_rec v) i) cs)) in foldM (fun cm i => let* c := vision_new_f v i in Ok (note_f cm (last_click (b_rec v) i) c)) (seq (S i) n) s') in Ok (gs', cm'))).
  { intros gs1 cs Hg1. destruct (place v r) as [q| | |] eqn:Ep; cbn [bind]; try (exists gs1; split; [assumption|reflexivity]).
    specialize (IH (S i) gs1 (note_f cm (last_click (b_rec v) i) cs) r q). rewrite EL in IH. apply IH; auto; try lia. now rewrite note_len_f. }
  assert (Hb : forall (X : R (list comment_f)) (gs' : list pboard_f) (Y : R fstate_f), Y = (let* cs := X in Ok (gs', note_f cm (last_click (b_rec v) i) cs)) -> boards_f v gs' ->
     exists gs'', boards_f v gs'' /\
     (let* (_, _, _, st) := (let* s' := (let* (gs, cm) := Y in let* q := place v r in Ok ((r_x r, r_y r), q, i, (gs, cm))) in foldM (vision_event_f v) (seq (S i) n) s') in Ok st) =
     (let* cm' := (let* s' := (let* c := (let* cs := X in let* _ := place v r in Ok cs) in Ok (note_f cm (last_click (b_rec v) i) c)) in
        foldM (fun cm i => let* c := vision_new_f v i in Ok (note_f cm (last_click (b_rec v) i) c)) (seq (S i) n) s') in Ok (gs'', cm'))).
  { intros X gs' Y -> Hg'. destruct X as [cs| | |]; cbn [bind]; try (exists gs'; split; [assumption|reflexivity]).
    destruct (Cont gs' cs Hg') as (g2 & Hg2 & EQ). exists g2. split; auto. rewrite EQ. destruct (place v r); reflexivity. }
  destruct (12544 <=? _).
  - destruct (ask_list_eq_f (r_prior r) Gbasic_not Hg) as (g1 & Hg1 & E1). destruct (ask_list_eq_f (r_prior r) Genum_not Hg1) as (g2 & Hg2 & E2).
    refine (Hb _ g2 _ _ Hg2). rewrite E1. destruct (pure_list v (r_prior r) Gbasic_not) as [l1| | |]; cbn [bind]; auto.
    rewrite E2. destruct (pure_list v (r_prior r) Genum_not) as [l2| | |]; cbn [bind]; auto.
    destruct (_ || _); [rewrite say_note_f by auto; reflexivity|now rewrite note_nil_f by auto].
  - refine (Hb _ gs _ _ Hg). cbn [bind]. now rewrite note_nil_f by auto.
Qed.
Lemma vision_eq_f v gs cm r0 q0 : boards_f v gs -> length cm = length (b_rec v) -> nth_error (b_rec v) 0 = Some r0 -> place v r0 = Ok q0 ->
  exists gs', boards_f v gs' /\ vision_transfer_f v (gs, cm) = (let* cm' := vision_notes_f v (seq 0 (length (b_rec v))) cm in Ok (gs', cm')).
Proof.
  intros Hg Hc E0 Eq. destruct (@vision_fold_f v (length (b_rec v)) 0 gs cm r0 q0) as (gs' & Hg' & EQ); auto.
  exists gs'. split; auto. rewrite <- EQ. unfold vision_transfer_f, vget. rewrite E0. cbn [bind]. rewrite Eq. reflexivity.
Qed.
Lemma vision_notes_ok_f v cs : forall is cm, (0 < length cm)%nat -> length cm = length (b_rec v) -> (forall i, In i is -> (i < length cm)%nat /\ vision_new_f v i = Ok (cs i)) ->
  exists cm', vision_notes_f v is cm = Ok cm' /\ length cm' = length cm /\
    forall j, nth j cm' [] = nth j cm [] ++ flat_map (fun i => if (last_click (b_rec v) i =? j)%nat then cs i else []) is.
Proof.
  unfold vision_notes_f. induction is as [|i is IH]; intros cm H0 Hc H; cbn [foldM flat_map].
  - exists cm. split; auto. split; auto. intros j. now rewrite app_nil_r.
  - destruct (H i (or_introl eq_refl)) as [Hi ->]. cbn [bind].
    assert (Hl : (last_click (b_rec v) i < length cm)%nat) by (rewrite Hc; apply last_click_lt; lia).
    destruct (IH (note_f cm (last_click (b_rec v) i) (cs i))) as (cm' & E & L & Hn).
    + now rewrite note_len_f. + now rewrite note_len_f. + intros j Hj. rewrite note_len_f. apply H. now right.
    + exists cm'. split; auto. split; [now rewrite L, note_len_f|]. intros j. rewrite Hn, note_nth_f by auto.
      destruct (_ =? j)%nat; [now rewrite app_assoc|reflexivity].
Qed.

(** ** analyse_survive_poss *)
Definition survive_step_f (v : bv) (st : (list binary64 * binary64) * bool) (i : nat) : R ((list binary64 * binary64) * bool) :=
  let '(ps, s, begun) := st in
  let* r := vget (b_rec v) i in
  if event_eqb (r_mouse r) e_lr && (1 <=? r_useful r)%nat then
    if negb begun then Ok (ps, s, true)
    else
      let* q := place v r in
      let* p := pure_poss_f v (r_prior r) q in
      Ok (if positive_f p && below_one_f p then (ps ++ [fsub f_one p], fmul s (fsub f_one p)) else (ps, s), true)
  else Ok (ps, s, begun).
Lemma survive_fold_f v : forall is ps s b gs, boards_f v gs -> exists gs', boards_f v gs' /\
  foldM (survive_event_f v) is (ps, s, b, gs) = (let* (ps', s', b') := foldM (survive_step_f v) is (ps, s, b) in Ok (ps', s', b', gs')).
Proof.
  induction is as [|i is IH]; intros ps s b gs Hg; cbn [foldM bind]; [exists gs; auto|].
  set (F := foldM (survive_event_f v) is). set (F2 := foldM (survive_step_f v) is). unfold survive_event_f, survive_step_f. subst F F2. destruct (vget (b_rec v) i) as [r| | |]; cbn [bind]; fin gs.
  destruct (_ && _); [|cbn [bind]; now apply IH]. destruct (negb b); [cbn [bind]; now apply IH|].
  destruct (place v r) as [q| | |]; cbn [bind]; fin gs. destruct (ask_poss_eq_f (r_prior r) q Hg) as (g1 & Hg1 & ->).
  destruct (pure_poss_f v (r_prior r) q) as [p| | |]; cbn [bind]; fin gs. destruct (positive_f p && below_one_f p); now apply IH.
Qed.
Lemma survive_eq_f v gs cm : boards_f v gs -> exists gs', boards_f v gs' /\
  survive_poss_f v (gs, cm) = (let* (ps, s, _) := foldM (survive_step_f v) (seq 0 (length (b_rec v))) ([], f_one, false) in
                             match cm with [] => Panic | _ => Ok (gs', replace_last cm [FLuck ps s]) end).
Proof.
  intros Hg. unfold survive_poss_f. cbn [fst snd]. destruct (@survive_fold_f v (seq 0 (length (b_rec v))) [] f_one false gs Hg) as (gs' & Hg' & ->).
  exists gs'. split; auto. destruct (foldM (survive_step_f v) _ _) as [[[ps s] b]| | |]; cbn [bind]; auto.
  destruct cm as [|c cm] using rev_ind; [reflexivity|]. clear IHcm. rewrite rev_unit, rev_involutive. unfold replace_last. rewrite removelast_last.
  destruct (cm ++ [c]) eqn:E; [destruct cm; discriminate E|reflexivity].
Qed.

(** ** The other two do not change the boards_f *)
Lemma say_len_f cm i c cm' : say_f cm i c = Ok cm' -> length cm' = length cm.
Proof. unfold say_f, vset. intros E. apply bind_ok in E as (l & _ & E). destruct (_ <? _)%nat; [|discriminate E]. injection E as <-. apply length_upd_nth. Qed.
Lemma trace_len_f v st st' : mouse_trace_f v st = Ok st' -> fst st' = fst st /\ length (snd st') = length (snd st).
Proof.
  unfold mouse_trace_f. intros E. apply bind_ok in E as (r & _ & E). apply bind_ok in E as ([[[c m] p] cm] & E1 & E). injection E as <-. cbn [fst snd]. split; auto.
  set (P := fun st : (Z * Z * nat) * (Z * Z) * binary64 * list (list comment_f) => length (snd st) = length (snd st)).
  clear P. refine (@foldM_inv_partial _ _ (trace_event_f v) (fun s => length (snd s) = length (snd st)) _ _ (c, m, p, cm) _ _ E1); [reflexivity|].
  intros [[[[[cx cy] ci] [mx my]] pa] cm1] i s' _ Hs Ee. unfold trace_event_f in Ee. cbn [snd] in Hs. apply bind_ok in Ee as (r' & _ & Ee).
  destruct (_ || _); [|injection Ee as <-; exact Hs]. apply bind_ok in Ee as (cm2 & E2 & Ee). injection Ee as <-. cbn [snd].
  destruct (trace_comment _); [rewrite (say_len_f E2); exact Hs|injection E2 as <-; exact Hs].
Qed.
Lemma fl_len_f v st st' : super_fl_local_f v st = Ok st' -> fst st' = fst st /\ length (snd st') = length (snd st).
Proof.
  unfold super_fl_local_f. intros E. apply bind_ok in E as ([[s li] cm] & E1 & E). injection E as <-. cbn [fst snd]. split; auto.
  refine (@foldM_inv_partial _ _ (fl_event_f v (fst st)) (fun x => length (snd x) = length (snd st)) _ _ (s, li, cm) _ _ E1); [reflexivity|].
  intros [[s1 l1] cm1] i s' _ Hs Ee. cbn [snd] in Hs. unfold fl_event_f in Ee. apply bind_ok in Ee as (r & _ & Ee).
  destruct (event_eqb _ _); [injection Ee as <-; exact Hs|]. apply bind_ok in Ee as (q & _ & Ee). apply bind_ok in Ee as (rl & _ & Ee). apply bind_ok in Ee as (ql & _ & Ee).
  apply bind_ok in Ee as (flag & _ & Ee). apply bind_ok in Ee as (s2 & _ & Ee). cbv zeta in Ee.
  destruct (fl_st _); try (injection Ee as <-; exact Hs). apply bind_ok in Ee as (cm2 & E2 & Ee). injection Ee as <-. cbn [snd]. rewrite (say_len_f E2). exact Hs.
Qed.

(** ** Any sequence of analyses *)
Definition fine_state_f (v : bv) (st : fstate_f) : Prop := boards_f v (fst st) /\ length (snd st) = length (b_rec v).
Lemma start_fine_f v : fine_state_f v (fstart_f v).
Proof. split; [apply boards_start_f|]. cbn. now rewrite map_length. Qed.
Lemma feature_fine_f v st c st' : fine_state_f v st -> run_feature_f v st c = Ok st' -> fine_state_f v st'.
Proof.
  destruct st as [gs cm]. intros [Hg Hc] E. cbn [fst snd] in *.
  assert (K : forall new is, (exists gs', boards_f v gs' /\ run_feature_f v (gs, cm) c = (let* cm' := notes_f new is cm in Ok (gs', cm'))) -> fine_state_f v st').
  { intros new is (gs' & Hg' & EQ). rewrite E in EQ. symmetry in EQ. apply bind_ok in EQ as (cm' & En & EQ). injection EQ as <-. split; auto. cbn [snd]. rewrite <- Hc.
    refine (@foldM_inv_partial _ _ (fun cm i => let* c := new i in Ok (note_f cm i c)) (fun x => length x = length cm) is cm cm' eq_refl _ En).
    intros x i x' _ Hx Ex. apply bind_ok in Ex as (c' & _ & Ex). injection Ex as <-. now rewrite note_len_f. }
  destruct c; cbn [run_feature_f] in *.
  - eapply K. apply risk_eq_f; auto.
  - eapply K. apply jump_eq_f; auto.
  - eapply K. apply needless_eq_f; auto.
  - destruct (trace_len_f E) as [H1 H2]. cbn [fst snd] in *. split; [now rewrite H1|congruence].
  - pose proof E as E'. unfold vision_transfer_f in E'. destruct (vget_case (b_rec v) 0) as [(r & Er & Er')|[_ Er]]; rewrite ?Er, ?Er' in E'; cbn [bind] in E'; [|discriminate E'].
    destruct (place v r) as [q| | |] eqn:Ep; cbn [bind] in E'; try discriminate E'. clear E'.
    destruct (vision_eq_f Hg Hc Er Ep) as (gs' & Hg' & EQ). rewrite E in EQ. symmetry in EQ. apply bind_ok in EQ as (cm' & En & EQ). injection EQ as <-. split; auto. cbn [snd]. rewrite <- Hc.
    refine (@foldM_inv_partial _ _ _ (fun x => length x = length cm) _ cm cm' eq_refl _ En).
    intros x i x' _ Hx Ex. apply bind_ok in Ex as (c' & _ & Ex). injection Ex as <-. now rewrite note_len_f.
  - destruct (@survive_eq_f v gs cm Hg) as (gs' & Hg' & EQ). rewrite E in EQ. symmetry in EQ. apply bind_ok in EQ as ([[ps s] b] & _ & EQ).
    destruct cm as [|c cm] using rev_ind; [discriminate EQ|]. clear IHcm. destruct (cm ++ [c]) as [|a t] eqn:Ecm; [destruct cm; discriminate Ecm|]. injection EQ as <-. split; auto. cbn [snd].
    rewrite <- Hc, <- Ecm. unfold replace_last. rewrite removelast_last, !app_length. reflexivity.
  - destruct (fl_len_f E) as [H1 H2]. cbn [fst snd] in *. split; [now rewrite H1|congruence].
  - injection E as <-. now split.
Qed.
Lemma analysed_fine_f v l st : analyse_for_features_f v (fstart_f v) l = Ok st -> fine_state_f v st.
Proof.
  intros E. refine (@foldM_inv_partial _ _ (run_feature_f v) (fine_state_f v) l _ st (start_fine_f v) _ E). intros s c s' _. apply feature_fine_f.
Qed.
