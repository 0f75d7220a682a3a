(** * FeatProofs: the feature analyses as functions of the stored boards and events. *)
From Verif Require Import Base Spec BaseFacts MineBoard Matrix Solve BoardCache StoreProofs Utils Possibility Evf BaseVideo Features.
Open Scope Z_scope.

(** ** The stored boards with what has been computed about them *)
Definition ok_pb (g0 : gboard) (pb : pboard) : Prop :=
  pb = PBoard g0 None \/
  exists s, gb_mark g0 = Ok s /\ (pb = PBoard s None \/ exists P, get_poss (PBoard g0 None) = Ok (P, PBoard s (Some P)) /\ pb = PBoard s (Some P)).
Definition boards (v : bv) (gs : list pboard) : Prop := Forall2 ok_pb (b_stream v) gs.

Lemma mark_marked g s : gb_mark g = Ok s -> gb_mark s = Ok s.
Proof.
  unfold gb_mark at 1. destruct (gb_is_marked g) eqn:E; [intros X; injection X as <-; unfold gb_mark; now rewrite E|]. intros X.
  apply bind_ok in X as ([[? ?] ?] & _ & X). apply bind_ok in X as ([[[? ?] ?] ?] & _ & X). apply bind_ok in X as ([[[? ?] ?] ?] & _ & X).
  apply bind_ok in X as (? & _ & X). apply bind_ok in X as (? & _ & X). apply bind_ok in X as ([? ?] & _ & X). apply bind_ok in X as (? & _ & X). injection X as <-. reflexivity.
Qed.
Lemma mark_board g s : gb_mark g = Ok s -> gb_board s = gb_board g.
Proof.
  unfold gb_mark. destruct (gb_is_marked g) eqn:E; [intros X; injection X as <-; auto|]. intros X.
  apply bind_ok in X as ([[? ?] ?] & _ & X). apply bind_ok in X as ([[[? ?] ?] ?] & _ & X). apply bind_ok in X as ([[[? ?] ?] ?] & _ & X).
  apply bind_ok in X as (? & _ & X). apply bind_ok in X as (? & _ & X). apply bind_ok in X as ([? ?] & _ & X). apply bind_ok in X as (? & _ & X). injection X as <-. reflexivity.
Qed.
Lemma ok_pb_board g0 pb : ok_pb g0 pb -> gb_board (pb_g pb) = gb_board g0.
Proof. intros [->|(s & E & [->|(P & _ & ->)])]; cbn; auto; now apply mark_board. Qed.

(** the answers, from the stored board alone *)
Definition pure_poss (v : bv) (id : nat) (p : pos) : R frac :=
  let* g := vget (b_stream v) id in
  let* (t, _) := get_poss (PBoard g None) in
  get t (fst p) (snd p).
Definition pure_list (v : bv) (id : nat) (q : gquery) : R (list pos) :=
  let* g := vget (b_stream v) id in
  let* s := gb_mark g in
  Ok (gpick s q).

Lemma boards_get v gs id : boards v gs ->
  (exists g0 pb, nth_error (b_stream v) id = Some g0 /\ nth_error gs id = Some pb /\ ok_pb g0 pb) \/
  (nth_error (b_stream v) id = None /\ nth_error gs id = None).
Proof.
  unfold boards. revert id. generalize (b_stream v) as st. intros st id H. revert id. induction H as [|g0 pb st gs Hp H IH]; intros [|id]; cbn [nth_error]; auto.
  left. exists g0, pb. auto.
Qed.
Lemma boards_set v gs id g0 pb : boards v gs -> nth_error (b_stream v) id = Some g0 -> ok_pb g0 pb -> boards v (upd_nth gs id pb).
Proof.
  unfold boards. generalize (b_stream v) as st. intros st H. revert id. induction H as [|g1 p1 st gs Hp H IH]; intros [|id] E Hpb; try discriminate E; cbn in *.
  - injection E as ->. constructor; auto.
  - constructor; eauto.
Qed.
Lemma boards_len v gs : boards v gs -> length gs = length (b_stream v).
Proof. unfold boards. intros H. induction H; cbn; auto. Qed.
Lemma boards_start v : boards v (fst (fstart v)).
Proof. unfold boards, fstart. cbn [fst]. induction (b_stream v); constructor; auto. now left. Qed.

Lemma ask_list_eq v gs id q : boards v gs -> exists gs', boards v gs' /\
  ask_list gs id q = (let* l := pure_list v id q in Ok (l, gs')).
Proof.
  intros H. unfold ask_list, pure_list, vget. destruct (boards_get id H) as [(g0 & pb & E0 & E1 & Hp)|[E0 E1]]; rewrite E0, E1; cbn [bind].
  2: exists gs; auto.
  assert (Hlen : (id < length gs)%nat) by (apply nth_error_Some; congruence).
  unfold get_list, gask.
  destruct Hp as [->|(s & Es & Hp)]; cbn [pb_g pb_poss].
  - destruct (gb_mark g0) as [s| | |] eqn:Es; cbn [bind]; try (exists gs; auto; fail).
    exists (upd_nth gs id (PBoard s None)). split; [eapply boards_set; eauto; right; eauto|]. rewrite (vset_ok _ Hlen). cbn [bind]. destruct q; reflexivity.
  - rewrite Es. cbn [bind]. assert (E : gb_mark (pb_g pb) = Ok s) by (destruct Hp as [->|(P & _ & ->)]; cbn; eapply mark_marked; eauto).
    rewrite E. cbn [bind]. exists (upd_nth gs id (PBoard s (pb_poss pb))). split.
    + eapply boards_set; eauto. right. exists s. split; auto. destruct Hp as [->|(P & EP & ->)]; cbn [pb_poss]; eauto.
    + rewrite (vset_ok _ Hlen). cbn [bind]. destruct q; reflexivity.
Qed.
Lemma ask_poss_eq v gs id p : boards v gs -> exists gs', boards v gs' /\
  ask_poss gs id p = (let* a := pure_poss v id p in Ok (a, gs')).
Proof.
  intros H. unfold ask_poss, pure_poss, vget. destruct (boards_get id H) as [(g0 & pb & E0 & E1 & Hp)|[E0 E1]]; rewrite E0, E1; cbn [bind].
  2: exists gs; auto.
  assert (Hlen : (id < length gs)%nat) by (apply nth_error_Some; congruence).
  assert (K : forall P s, gb_mark g0 = Ok s -> get_poss (PBoard g0 None) = Ok (P, PBoard s (Some P)) ->
     get_poss pb = Ok (P, PBoard s (Some P)) -> exists gs', boards v gs' /\
       (let* (t, g) := get_poss pb in let* gs := vset gs id g in let* a := get t (fst p) (snd p) in Ok (a, gs)) =
       (let* a := (let* (t, _) := get_poss (PBoard g0 None) in get t (fst p) (snd p)) in Ok (a, gs'))).
  { intros P s Es Eg Ep. rewrite Ep, Eg. cbn [bind]. rewrite (vset_ok _ Hlen). cbn [bind]. eexists. split; [|reflexivity].
    eapply boards_set; eauto. right. exists s. split; auto. right. exists P. auto. }
  assert (D : (exists P s, gb_mark g0 = Ok s /\ get_poss (PBoard g0 None) = Ok (P, PBoard s (Some P)) /\ get_poss pb = Ok (P, PBoard s (Some P))) \/
     (exists (e : forall A : Type, R A), get_poss (PBoard g0 None) = e _ /\ get_poss pb = e _ /\ forall A B (k : A -> R B), bind (e A) k = e B)).
  { unfold get_poss. cbn [pb_g pb_poss]. destruct Hp as [->|(s & Es & Hp)]; cbn [pb_g pb_poss].
    - destruct (gb_mark g0) as [s|e| |] eqn:Es; cbn [bind].
      + destruct (unwrap (cal_possibility_onboard (gb_marked s) (mine_arg (gb_minenum s)))) as [[P x]|e| |] eqn:Eu; cbn [bind];
          [left; exists P, s; auto|right; exists (fun _ => Err e); auto|right; exists (fun _ => Panic); auto|right; exists (fun _ => OutOfFuel); auto].
      + right. exists (fun _ => Err e). auto.
      + right. exists (fun _ => Panic). auto.
      + right. exists (fun _ => OutOfFuel). auto.
    - rewrite Es. cbn [bind]. destruct Hp as [->|(P & EP & ->)]; cbn [pb_g pb_poss].
      + rewrite (mark_marked Es). cbn [bind].
        destruct (unwrap (cal_possibility_onboard (gb_marked s) (mine_arg (gb_minenum s)))) as [[P x]|e| |] eqn:Eu; cbn [bind];
          [left; exists P, s; auto|right; exists (fun _ => Err e); auto|right; exists (fun _ => Panic); auto|right; exists (fun _ => OutOfFuel); auto].
      + left. exists P, s. split; auto. split; auto. unfold get_poss in EP. cbn [pb_g pb_poss] in EP. rewrite Es in EP. cbn [bind] in EP. exact EP. }
  destruct D as [(P & s & Es & Eg & Ep)|(e & Eg & Ep & Hb)]; [eauto|].
  exists gs. split; auto. rewrite Eg, Ep, !Hb. reflexivity.
Qed.

(** ** Comments *)
(** event [i] gets the comments [cs] in addition *)
Definition note (cm : list (list comment)) (i : nat) (cs : list comment) : list (list comment) :=
  upd_nth cm i (nth i cm [] ++ cs).
Lemma note_len cm i cs : length (note cm i cs) = length cm.
Proof. apply length_upd_nth. Qed.
Lemma upd_same {A} (l : list A) i d : (i < length l)%nat -> upd_nth l i (nth i l d) = l.
Proof. revert i. induction l as [|x l IH]; intros [|i] H; cbn in *; try lia; auto. f_equal. apply IH. lia. Qed.
Lemma note_nil cm i : (i < length cm)%nat -> note cm i [] = cm.
Proof. intros H. unfold note. rewrite app_nil_r. now apply upd_same. Qed.
Lemma say_note cm i c : (i < length cm)%nat -> say cm i c = Ok (note cm i [c]).
Proof. intros H. unfold say, note. rewrite (vget_ok [] H). cbn [bind]. now rewrite (vset_ok _ H). Qed.
Lemma note_nth cm i cs j d : (i < length cm)%nat -> nth j (note cm i cs) d = if (i =? j)%nat then nth j cm d ++ cs else nth j cm d.
Proof.
  intros H. unfold note. destruct (Nat.eqb_spec i j) as [<-|Hne]; [|now apply nth_upd_nth_neq].
  rewrite nth_upd_nth_eq by auto. f_equal. now apply nth_indep.
Qed.
(** a pass over the events [is]: event [i] gets the comments [new i] *)
Definition notes (new : nat -> R (list comment)) (is : list nat) (cm : list (list comment)) : R (list (list comment)) :=
  foldM (fun cm i => let* c := new i in Ok (note cm i c)) is cm.
Lemma pass_eq (v : bv) (step : fstate -> nat -> R fstate) new is n :
  (forall gs cm i, In i is -> boards v gs -> length cm = n -> exists gs', boards v gs' /\ step (gs, cm) i = (let* c := new i in Ok (gs', note cm i c))) ->
  forall gs cm, boards v gs -> length cm = n -> exists gs', boards v gs' /\ foldM step is (gs, cm) = (let* cm' := notes new is cm in Ok (gs', cm')).
Proof.
  unfold notes. induction is as [|i is IH]; intros Hs gs cm Hg Hc; cbn [foldM bind]; [exists gs; auto|].
  destruct (Hs gs cm i (or_introl eq_refl) Hg Hc) as (g1 & Hg1 & ->). destruct (new i) as [c| | |]; cbn [bind]; try (exists gs; auto; fail).
  apply IH; auto. { intros gs' cm' j Hj. apply Hs. now right. } now rewrite note_len.
Qed.
(** the comments [cm'] are [cm] with [new i] appended for event [i] *)
Lemma notes_ok new cs is cm : NoDup is -> (forall i, In i is -> (i < length cm)%nat /\ new i = Ok (cs i)) ->
  exists cm', notes new is cm = Ok cm' /\ length cm' = length cm /\
    forall i, nth i cm' [] = nth i cm [] ++ (if existsb (Nat.eqb i) is then cs i else []).
Proof.
  unfold notes. revert cm. induction is as [|i is IH]; intros cm Nd H; cbn [foldM].
  - exists cm. split; auto. split; auto. intros i. cbn. now rewrite app_nil_r.
  - apply NoDup_cons_iff in Nd as [Hi Nd]. destruct (H i (or_introl eq_refl)) as [Hl ->]. cbn [bind].
    destruct (IH (note cm i (cs i)) Nd) as (cm' & E & L & Hc). { intros j Hj. rewrite note_len. apply H. now right. }
    exists cm'. split; auto. split; [now rewrite L, note_len|]. intros j. rewrite Hc, note_nth by auto. cbn [existsb].
    destruct (Nat.eqb_spec j i) as [->|Hne].
    + rewrite Nat.eqb_refl. replace (existsb (Nat.eqb i) is) with false; [cbn [orb]; now rewrite app_nil_r|].
      symmetry. apply not_true_is_false. intros X. apply existsb_exists in X as (k & Hk & Ek). apply Nat.eqb_eq in Ek. congruence.
    + destruct (Nat.eqb_spec i j); [congruence|]. reflexivity.
Qed.
Lemma notes_inv new is cm cm' : notes new is cm = Ok cm' -> forall i, In i is -> exists c, new i = Ok c.
Proof.
  unfold notes. revert cm. induction is as [|i is IH]; intros cm E j Hj; [destruct Hj|]. cbn [foldM] in E. apply bind_ok in E as (c1 & E1 & E). apply bind_ok in E1 as (c & Ec & E1).
  destruct Hj as [<-|Hj]; eauto.
Qed.
(** one sequence of new comments serves every run *)
Lemma notes_rows new is cm cm' : NoDup is -> (forall i, In i is -> (i < length cm)%nat) -> notes new is cm = Ok cm' ->
  length cm' = length cm /\ exists cs, (forall i, In i is -> new i = Ok (cs i)) /\
    forall i, nth i cm' [] = nth i cm [] ++ (if existsb (Nat.eqb i) is then cs i else []).
Proof.
  intros Nd Hl E. set (cs := fun i => match new i with Ok c => c | _ => [] end).
  assert (Hcs : forall i, In i is -> new i = Ok (cs i)) by (intros i Hi; destruct (notes_inv E Hi) as (c & Ec); unfold cs; now rewrite Ec).
  destruct (@notes_ok new cs is cm Nd) as (cm1 & E1 & L & H). { intros i Hi. auto. } rewrite E in E1. injection E1 as <-. eauto 6.
Qed.

(** ** The events *)
Lemma rng_lt i n : In i (rng 2 n) <-> (2 <= i < n)%nat.
Proof. unfold rng. rewrite in_seq. lia. Qed.
Lemma vget_case {A} (l : list A) i : (exists x, nth_error l i = Some x /\ vget l i = Ok x) \/ (nth_error l i = None /\ vget l i = Panic).
Proof. unfold vget. destruct (nth_error l i); eauto. Qed.

Ltac fin gs := try (exists gs; split; [assumption|reflexivity]).

Definition risk_new (v : bv) (i : nat) : R (list comment) :=
  let* r := vget (b_rec v) i in
  let* q := place v r in
  if (2 <=? r_useful r)%nat then let* p := pure_poss v (r_prior r) q in Ok (if at_least_51 p then [Risky p] else []) else Ok [].
Lemma risk_eq v gs cm : boards v gs -> length cm = length (b_rec v) -> exists gs', boards v gs' /\
  high_risk_guess v (gs, cm) = (let* cm' := notes (risk_new v) (rng 2 (length (b_rec v))) cm in Ok (gs', cm')).
Proof.
  intros Hg Hc. unfold high_risk_guess. revert gs cm Hg Hc. apply pass_eq. intros gs cm i Hi Hg Hc. apply rng_lt in Hi.
  unfold risk_new. destruct (vget (b_rec v) i) as [r| | |]; cbn [bind]; fin gs. destruct (place v r) as [q| | |]; cbn [bind]; fin gs.
  destruct (2 <=? r_useful r)%nat; [|exists gs; split; auto; cbn [bind]; now rewrite note_nil by lia].
  destruct (ask_poss_eq (r_prior r) q Hg) as (gs' & Hg' & ->). exists gs'. split; auto. destruct (pure_poss v (r_prior r) q) as [p| | |]; cbn [bind]; auto.
  destruct (at_least_51 p); [rewrite say_note by lia; reflexivity|now rewrite note_nil by lia].
Qed.

Definition pure_only (v : bv) (id : nat) (q1 q2 : gquery) (q : pos) : R bool :=
  let* l := pure_list v id q1 in if mem_pos q l then Ok false else let* l := pure_list v id q2 in Ok (mem_pos q l).
Lemma only_eq v gs id q1 q2 q : boards v gs -> exists gs', boards v gs' /\ only_by gs id q1 q2 q = (let* b := pure_only v id q1 q2 q in Ok (b, gs')).
Proof.
  intros Hg. unfold only_by, pure_only. destruct (ask_list_eq id q1 Hg) as (g1 & Hg1 & ->). destruct (pure_list v id q1) as [l| | |]; cbn [bind]; fin gs.
  destruct (mem_pos q l); cbn [bind]; [exists g1; auto|]. destruct (ask_list_eq id q2 Hg1) as (g2 & Hg2 & ->). destruct (pure_list v id q2) as [l2| | |]; cbn [bind]; fin gs.
  exists g2. auto.
Qed.
Definition jump_new (v : bv) (i : nat) : R (list comment) :=
  let* r := vget (b_rec v) i in
  let* q := place v r in
  if (2 <=? r_useful r)%nat && event_eqb (r_mouse r) e_lr then
    let* b := pure_only v (r_prior r) Gbasic_not Genum_not q in Ok (if b : bool then [HardLeft] else [])
  else if (r_useful r =? 1)%nat && event_eqb (r_mouse r) e_rc then
    let* b := pure_only v (r_prior r) Gbasic_is Genum_is q in Ok (if b : bool then [HardFlag] else [])
  else Ok [].
Lemma jump_eq v gs cm : boards v gs -> length cm = length (b_rec v) -> exists gs', boards v gs' /\
  jump_judge v (gs, cm) = (let* cm' := notes (jump_new v) (rng 2 (length (b_rec v))) cm in Ok (gs', cm')).
Proof.
  intros Hg Hc. unfold jump_judge. revert gs cm Hg Hc. apply pass_eq. intros gs cm i Hi Hg Hc. apply rng_lt in Hi.
  unfold jump_new. destruct (vget (b_rec v) i) as [r| | |]; cbn [bind]; fin gs. destruct (place v r) as [q| | |]; cbn [bind]; fin gs.
  destruct (_ && _).
  - destruct (only_eq (r_prior r) Gbasic_not Genum_not q Hg) as (gs' & Hg' & ->). exists gs'. split; auto. destruct (pure_only _ _ _ _ _) as [[]| | |]; cbn [bind]; auto.
    + rewrite say_note by lia. reflexivity.
    + now rewrite note_nil by lia.
  - destruct (_ && _).
    + destruct (only_eq (r_prior r) Gbasic_is Genum_is q Hg) as (gs' & Hg' & ->). exists gs'. split; auto. destruct (pure_only _ _ _ _ _) as [[]| | |]; cbn [bind]; auto.
      * rewrite say_note by lia. reflexivity.
      * now rewrite note_nil by lia.
    + exists gs. split; auto. cbn [bind]. now rewrite note_nil by lia.
Qed.

Definition needless_new (v : bv) (i : nat) : R (list comment) :=
  let* r := vget (b_rec v) i in
  if (2 <=? r_useful r)%nat && event_eqb (r_mouse r) e_lr then
    let* q := place v r in
    let* p := pure_poss v (r_prior r) q in
    if positive p then
      let* l := pure_list v (r_prior r) Gbasic_not in
      if mem_pos q l then Ok []
      else let* l := pure_list v (r_prior r) Genum_not in Ok (if mem_pos q l then [] else [Needless])
    else Ok []
  else Ok [].
Lemma needless_eq v gs cm : boards v gs -> length cm = length (b_rec v) -> exists gs', boards v gs' /\
  needless_guess v (gs, cm) = (let* cm' := notes (needless_new v) (rng 2 (length (b_rec v))) cm in Ok (gs', cm')).
Proof.
  intros Hg Hc. unfold needless_guess. revert gs cm Hg Hc. apply pass_eq. intros gs cm i Hi Hg Hc. apply rng_lt in Hi.
  unfold needless_new. destruct (vget (b_rec v) i) as [r| | |]; cbn [bind]; fin gs.
  destruct (_ && _); [|exists gs; split; auto; cbn [bind]; now rewrite note_nil by lia]. destruct (place v r) as [q| | |]; cbn [bind]; fin gs.
  destruct (ask_poss_eq (r_prior r) q Hg) as (g1 & Hg1 & ->). destruct (pure_poss v (r_prior r) q) as [p| | |]; cbn [bind]; fin gs.
  destruct (positive p); [|exists g1; split; auto; cbn [bind]; now rewrite note_nil by lia].
  destruct (ask_list_eq (r_prior r) Gbasic_not Hg1) as (g2 & Hg2 & ->). destruct (pure_list v (r_prior r) Gbasic_not) as [l| | |]; cbn [bind]; fin gs.
  destruct (mem_pos q l); [exists g2; split; auto; cbn [bind]; now rewrite note_nil by lia|].
  destruct (ask_list_eq (r_prior r) Genum_not Hg2) as (g3 & Hg3 & ->). destruct (pure_list v (r_prior r) Genum_not) as [l'| | |]; cbn [bind]; fin gs.
  exists g3. split; auto. destruct (mem_pos q l'); [now rewrite note_nil by lia|rewrite say_note by lia; reflexivity].
Qed.

(** ** analyse_vision_transfer *)
(** the last event before [i] answered 2 or 3, or event 0 *)
Fixpoint last_click (rs : list rec) (i : nat) : nat :=
  match i with
  | O => O
  | S i => match nth_error rs i with
           | Some r => if (2 <=? r_useful r)%nat then i else last_click rs i
           | None => last_click rs i
           end
  end.
Lemma last_click_lt rs i : (i <= length rs)%nat -> (0 < length rs)%nat -> (last_click rs i < length rs)%nat.
Proof.
  induction i as [|i IH]; intros H H0; cbn [last_click]; auto. destruct (nth_error rs i) as [r|] eqn:E; [|apply IH; lia].
  destruct (2 <=? r_useful r)%nat; [lia|apply IH; lia].
Qed.
(** what event [i] adds to the comments of event [last_click i] *)
Definition vision_new (v : bv) (i : nat) : R (list comment) :=
  let* r := vget (b_rec v) i in
  if (2 <=? r_useful r)%nat then
    let* rl := vget (b_rec v) (last_click (b_rec v) i) in
    let* l := place v rl in
    let* cs := (if 12544 <=? (r_y rl - r_y r) * (r_y rl - r_y r) + (r_x rl - r_x r) * (r_x rl - r_x r) then
        let* l1 := pure_list v (r_prior r) Gbasic_not in
        let* l2 := pure_list v (r_prior r) Genum_not in
        Ok (if existsb (close_to l) l1 || existsb (close_to l) l2 then [Vision] else [])
      else Ok []) in
    let* _ := place v r in
    Ok cs
  else Ok [].
Definition vision_notes (v : bv) (is : list nat) (cm : list (list comment)) : R (list (list comment)) :=
  foldM (fun cm i => let* c := vision_new v i in Ok (note cm (last_click (b_rec v) i) c)) is cm.
Lemma vision_fold v : forall n i gs cm rl l, (i + n <= length (b_rec v))%nat -> boards v gs -> length cm = length (b_rec v) ->
  nth_error (b_rec v) (last_click (b_rec v) i) = Some rl -> place v rl = Ok l ->
  exists gs', boards v gs' /\
    (let* (_, _, _, st) := foldM (vision_event v) (seq i n) ((r_x rl, r_y rl), l, last_click (b_rec v) i, (gs, cm)) in Ok st) =
    (let* cm' := vision_notes v (seq i n) cm in Ok (gs', cm')).
Proof.
  unfold vision_notes. induction n as [|n IH]; intros i gs cm rl l Hi Hg Hc Er El; cbn [seq foldM bind]; [exists gs; auto|].
  assert (Hlt : (last_click (b_rec v) i < length cm)%nat) by (rewrite Hc; apply nth_error_Some; congruence).
  destruct (vget_case (b_rec v) i) as [(r & E & E')|[E _]]; [|apply nth_error_None in E; lia].
  set (F := foldM (vision_event v) (seq (S i) n)). set (F2 := foldM (fun cm i => let* c := vision_new v i in Ok (note cm (last_click (b_rec v) i) c)) (seq (S i) n)).
  unfold vision_event, vision_new. subst F F2. rewrite E'. cbn [bind].
  assert (EL : last_click (b_rec v) (S i) = if (2 <=? r_useful r)%nat then i else last_click (b_rec v) i) by (cbn [last_click]; now rewrite E).
  destruct (2 <=? r_useful r)%nat.
  2:{ cbn [bind]. rewrite note_nil by auto. specialize (IH (S i) gs cm rl l). rewrite EL in IH. apply IH; auto. lia. }
  unfold vget at 1. rewrite Er. cbn [bind]. rewrite El. cbn [bind].
  assert (Cont : forall gs cs, boards v gs -> exists gs', boards v gs' /\
     (let* (_, _, _, st) := (let* s' := (let* q := place v r in Ok ((r_x r, r_y r), q, i, (gs, note cm (last_click (b_rec v) i) cs))) in foldM (vision_event v) (seq (S i) n) s') in Ok st) =
     (let* cm' := (let* s' := (let* _ := place v r in Ok (note cm (last_click (b_rec v) i) cs)) in foldM (fun cm i => let* c := vision_new v i in Ok (note cm (last_click (b_rec v) i) c)) (seq (S i) n) s') in Ok (gs', cm'))).
  { intros gs1 cs Hg1. destruct (place v r) as [q| | |] eqn:Ep; cbn [bind]; try (exists gs1; split; [assumption|reflexivity]).
    specialize (IH (S i) gs1 (note cm (last_click (b_rec v) i) cs) r q). rewrite EL in IH. apply IH; auto; try lia. now rewrite note_len. }
  assert (Hb : forall (X : R (list comment)) (gs' : list pboard) (Y : R fstate), Y = (let* cs := X in Ok (gs', note cm (last_click (b_rec v) i) cs)) -> boards v gs' ->
     exists gs'', boards v gs'' /\
     (let* (_, _, _, st) := (let* s' := (let* (gs, cm) := Y in let* q := place v r in Ok ((r_x r, r_y r), q, i, (gs, cm))) in foldM (vision_event v) (seq (S i) n) s') in Ok st) =
     (let* cm' := (let* s' := (let* c := (let* cs := X in let* _ := place v r in Ok cs) in Ok (note cm (last_click (b_rec v) i) c)) in
        foldM (fun cm i => let* c := vision_new v i in Ok (note cm (last_click (b_rec v) i) c)) (seq (S i) n) s') in Ok (gs'', cm'))).
  { intros X gs' Y -> Hg'. destruct X as [cs| | |]; cbn [bind]; try (exists gs'; split; [assumption|reflexivity]).
    destruct (Cont gs' cs Hg') as (g2 & Hg2 & EQ). exists g2. split; auto. rewrite EQ. destruct (place v r); reflexivity. }
  destruct (12544 <=? _).
  - destruct (ask_list_eq (r_prior r) Gbasic_not Hg) as (g1 & Hg1 & E1). destruct (ask_list_eq (r_prior r) Genum_not Hg1) as (g2 & Hg2 & E2).
    refine (Hb _ g2 _ _ Hg2). rewrite E1. destruct (pure_list v (r_prior r) Gbasic_not) as [l1| | |]; cbn [bind]; auto.
    rewrite E2. destruct (pure_list v (r_prior r) Genum_not) as [l2| | |]; cbn [bind]; auto.
    destruct (_ || _); [rewrite say_note by auto; reflexivity|now rewrite note_nil by auto].
  - refine (Hb _ gs _ _ Hg). cbn [bind]. now rewrite note_nil by auto.
Qed.
Lemma vision_eq v gs cm r0 q0 : boards v gs -> length cm = length (b_rec v) -> nth_error (b_rec v) 0 = Some r0 -> place v r0 = Ok q0 ->
  exists gs', boards v gs' /\ vision_transfer v (gs, cm) = (let* cm' := vision_notes v (seq 0 (length (b_rec v))) cm in Ok (gs', cm')).
Proof.
  intros Hg Hc E0 Eq. destruct (@vision_fold v (length (b_rec v)) 0 gs cm r0 q0) as (gs' & Hg' & EQ); auto.
  exists gs'. split; auto. rewrite <- EQ. unfold vision_transfer, vget. rewrite E0. cbn [bind]. rewrite Eq. reflexivity.
Qed.
Lemma vision_notes_ok v cs : forall is cm, (0 < length cm)%nat -> length cm = length (b_rec v) -> (forall i, In i is -> (i < length cm)%nat /\ vision_new v i = Ok (cs i)) ->
  exists cm', vision_notes v is cm = Ok cm' /\ length cm' = length cm /\
    forall j, nth j cm' [] = nth j cm [] ++ flat_map (fun i => if (last_click (b_rec v) i =? j)%nat then cs i else []) is.
Proof.
  unfold vision_notes. induction is as [|i is IH]; intros cm H0 Hc H; cbn [foldM flat_map].
  - exists cm. split; auto. split; auto. intros j. now rewrite app_nil_r.
  - destruct (H i (or_introl eq_refl)) as [Hi ->]. cbn [bind].
    assert (Hl : (last_click (b_rec v) i < length cm)%nat) by (rewrite Hc; apply last_click_lt; lia).
    destruct (IH (note cm (last_click (b_rec v) i) (cs i))) as (cm' & E & L & Hn).
    + now rewrite note_len. + now rewrite note_len. + intros j Hj. rewrite note_len. apply H. now right.
    + exists cm'. split; auto. split; [now rewrite L, note_len|]. intros j. rewrite Hn, note_nth by auto.
      destruct (_ =? j)%nat; [now rewrite app_assoc|reflexivity].
Qed.

(** ** analyse_survive_poss *)
Definition survive_step (v : bv) (st : list frac * bool) (i : nat) : R (list frac * bool) :=
  let '(ps, begun) := st in
  let* r := vget (b_rec v) i in
  if event_eqb (r_mouse r) e_lr && (1 <=? r_useful r)%nat then
    if negb begun then Ok (ps, true)
    else
      let* q := place v r in
      let* p := pure_poss v (r_prior r) q in
      Ok (if positive p && below_one p then ps ++ [p] else ps, true)
  else Ok (ps, begun).
Lemma survive_fold v : forall is ps b gs, boards v gs -> exists gs', boards v gs' /\
  foldM (survive_event v) is (ps, b, gs) = (let* (ps', b') := foldM (survive_step v) is (ps, b) in Ok (ps', b', gs')).
Proof.
  induction is as [|i is IH]; intros ps b gs Hg; cbn [foldM bind]; [exists gs; auto|].
  set (F := foldM (survive_event v) is). set (F2 := foldM (survive_step v) is). unfold survive_event, survive_step. subst F F2. destruct (vget (b_rec v) i) as [r| | |]; cbn [bind]; fin gs.
  destruct (_ && _); [|cbn [bind]; now apply IH]. destruct (negb b); [cbn [bind]; now apply IH|].
  destruct (place v r) as [q| | |]; cbn [bind]; fin gs. destruct (ask_poss_eq (r_prior r) q Hg) as (g1 & Hg1 & ->).
  destruct (pure_poss v (r_prior r) q) as [p| | |]; cbn [bind]; fin gs. now apply IH.
Qed.
(** the last event's comments are replaced *)
Definition replace_last {A} (l : list A) (x : A) : list A := removelast l ++ [x].
Lemma survive_eq v gs cm : boards v gs -> exists gs', boards v gs' /\
  survive_poss v (gs, cm) = (let* (ps, _) := foldM (survive_step v) (seq 0 (length (b_rec v))) ([], false) in
                             match cm with [] => Panic | _ => Ok (gs', replace_last cm [Luck ps]) end).
Proof.
  intros Hg. unfold survive_poss. cbn [fst snd]. destruct (@survive_fold v (seq 0 (length (b_rec v))) [] false gs Hg) as (gs' & Hg' & ->).
  exists gs'. split; auto. destruct (foldM (survive_step v) _ _) as [[ps b]| | |]; cbn [bind]; auto.
  destruct cm as [|c cm] using rev_ind; [reflexivity|]. clear IHcm. rewrite rev_unit, rev_involutive. unfold replace_last. rewrite removelast_last.
  destruct (cm ++ [c]) eqn:E; [destruct cm; discriminate E|reflexivity].
Qed.

(** ** The other two do not change the boards *)
Lemma say_len cm i c cm' : say cm i c = Ok cm' -> length cm' = length cm.
Proof. unfold say, vset. intros E. apply bind_ok in E as (l & _ & E). destruct (_ <? _)%nat; [|discriminate E]. injection E as <-. apply length_upd_nth. Qed.
Lemma trace_len v st st' : mouse_trace v st = Ok st' -> fst st' = fst st /\ length (snd st') = length (snd st).
Proof.
  unfold mouse_trace. intros E. apply bind_ok in E as (r & _ & E). apply bind_ok in E as ([[[c m] p] cm] & E1 & E). injection E as <-. cbn [fst snd]. split; auto.
  set (P := fun st : (Z * Z * nat) * (Z * Z) * Flocq.IEEE754.Bits.binary64 * list (list comment) => length (snd st) = length (snd st)).
  clear P. refine (@foldM_inv_partial _ _ (trace_event v) (fun s => length (snd s) = length (snd st)) _ _ (c, m, p, cm) _ _ E1); [reflexivity|].
  intros [[[[[cx cy] ci] [mx my]] pa] cm1] i s' _ Hs Ee. unfold trace_event in Ee. cbn [snd] in Hs. apply bind_ok in Ee as (r' & _ & Ee).
  destruct (_ || _); [|injection Ee as <-; exact Hs]. apply bind_ok in Ee as (cm2 & E2 & Ee). injection Ee as <-. cbn [snd].
  destruct (trace_comment _); [rewrite (say_len E2); exact Hs|injection E2 as <-; exact Hs].
Qed.
Lemma fl_len v st st' : super_fl_local v st = Ok st' -> fst st' = fst st /\ length (snd st') = length (snd st).
Proof.
  unfold super_fl_local. intros E. apply bind_ok in E as ([[s li] cm] & E1 & E). injection E as <-. cbn [fst snd]. split; auto.
  refine (@foldM_inv_partial _ _ (fl_event v (fst st)) (fun x => length (snd x) = length (snd st)) _ _ (s, li, cm) _ _ E1); [reflexivity|].
  intros [[s1 l1] cm1] i s' _ Hs Ee. cbn [snd] in Hs. unfold fl_event in Ee. apply bind_ok in Ee as (r & _ & Ee).
  destruct (event_eqb _ _); [injection Ee as <-; exact Hs|]. apply bind_ok in Ee as (q & _ & Ee). apply bind_ok in Ee as (rl & _ & Ee). apply bind_ok in Ee as (ql & _ & Ee).
  apply bind_ok in Ee as (flag & _ & Ee). apply bind_ok in Ee as (s2 & _ & Ee). cbv zeta in Ee.
  destruct (fl_st _); try (injection Ee as <-; exact Hs). apply bind_ok in Ee as (cm2 & E2 & Ee). injection Ee as <-. cbn [snd]. rewrite (say_len E2). exact Hs.
Qed.

(** ** Any sequence of analyses *)
Definition fine_state (v : bv) (st : fstate) : Prop := boards v (fst st) /\ length (snd st) = length (b_rec v).
Lemma start_fine v : fine_state v (fstart v).
Proof. split; [apply boards_start|]. cbn. now rewrite map_length. Qed.
Lemma feature_fine v st c st' : fine_state v st -> run_feature v st c = Ok st' -> fine_state v st'.
Proof.
  destruct st as [gs cm]. intros [Hg Hc] E. cbn [fst snd] in *.
  assert (K : forall new is, (exists gs', boards v gs' /\ run_feature v (gs, cm) c = (let* cm' := notes new is cm in Ok (gs', cm'))) -> fine_state v st').
  { intros new is (gs' & Hg' & EQ). rewrite E in EQ. symmetry in EQ. apply bind_ok in EQ as (cm' & En & EQ). injection EQ as <-. split; auto. cbn [snd]. rewrite <- Hc.
    refine (@foldM_inv_partial _ _ (fun cm i => let* c := new i in Ok (note cm i c)) (fun x => length x = length cm) is cm cm' eq_refl _ En).
    intros x i x' _ Hx Ex. apply bind_ok in Ex as (c' & _ & Ex). injection Ex as <-. now rewrite note_len. }
  destruct c; cbn [run_feature] in *.
  - eapply K. apply risk_eq; auto.
  - eapply K. apply jump_eq; auto.
  - eapply K. apply needless_eq; auto.
  - destruct (trace_len E) as [H1 H2]. cbn [fst snd] in *. split; [now rewrite H1|congruence].
  - pose proof E as E'. unfold vision_transfer in E'. destruct (vget_case (b_rec v) 0) as [(r & Er & Er')|[_ Er]]; rewrite ?Er, ?Er' in E'; cbn [bind] in E'; [|discriminate E'].
    destruct (place v r) as [q| | |] eqn:Ep; cbn [bind] in E'; try discriminate E'. clear E'.
    destruct (vision_eq Hg Hc Er Ep) as (gs' & Hg' & EQ). rewrite E in EQ. symmetry in EQ. apply bind_ok in EQ as (cm' & En & EQ). injection EQ as <-. split; auto. cbn [snd]. rewrite <- Hc.
    refine (@foldM_inv_partial _ _ _ (fun x => length x = length cm) _ cm cm' eq_refl _ En).
    intros x i x' _ Hx Ex. apply bind_ok in Ex as (c' & _ & Ex). injection Ex as <-. now rewrite note_len.
  - destruct (@survive_eq v gs cm Hg) as (gs' & Hg' & EQ). rewrite E in EQ. symmetry in EQ. apply bind_ok in EQ as ([ps b] & _ & EQ).
    destruct cm as [|c cm] using rev_ind; [discriminate EQ|]. clear IHcm. destruct (cm ++ [c]) as [|a t] eqn:Ecm; [destruct cm; discriminate Ecm|]. injection EQ as <-. split; auto. cbn [snd].
    rewrite <- Hc, <- Ecm. unfold replace_last. rewrite removelast_last, !app_length. reflexivity.
  - destruct (fl_len E) as [H1 H2]. cbn [fst snd] in *. split; [now rewrite H1|congruence].
  - injection E as <-. now split.
Qed.
Lemma analysed_fine v l st : analyse_for_features v (fstart v) l = Ok st -> fine_state v st.
Proof.
  intros E. refine (@foldM_inv_partial _ _ (run_feature v) (fine_state v) l _ st (start_fine v) _ E). intros s c s' _. apply feature_fine.
Qed.
