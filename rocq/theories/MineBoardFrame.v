(** * MineBoardFrame: what one event changes besides the board; absence of panics. *)
From Verif Require Import Base Spec BaseFacts LayMine LayMineProofs Metrics MetricsProofs
  Refresh RefreshProofs BBBVProofs MineBoard OpProofs MineBoardProofs.
Open Scope Z_scope.

Lemma check_win_frame s1 s' : check_win s1 = Ok s' ->
  m_row s' = m_row s1 /\ m_column s' = m_column s1 /\ m_board s' = m_board s1 /\ m_gb s' = m_gb s1 /\
  m_left s' = m_left s1 /\ m_right s' = m_right s1 /\ m_double s' = m_double s1 /\ m_ce s' = m_ce s1 /\
  m_solved s' = m_solved s1 /\ m_mouse s' = m_mouse s1 /\ m_flag s' = m_flag s1 /\ m_flaged s' = m_flaged s1 /\
  m_preflag s' = m_preflag s1 /\ m_mid s' = m_mid s1.
Proof.
  unfold check_win, is_win. intros E. apply bind_ok in E as ([s2 w] & E & E2). injection E2 as <-.
  apply bind_ok in E as (r & _ & E). destruct r as [[[i j]|]|]; injection E as <- <-; simpl; auto 20.
Qed.

Lemma left_frame s x y s' o : left_result s x y s' o ->
  m_row s' = m_row s /\ m_column s' = m_column s /\ m_board s' = m_board s /\
  m_left s' = S (m_left s) /\ m_right s' = m_right s /\ m_double s' = m_double s /\
  m_mouse s' = m_mouse s /\ m_mid s' = m_mid s /\
  (m_ce s <= m_ce s' <= S (m_ce s))%nat /\ (m_solved s <= m_solved s')%nat /\
  (m_solved s < m_solved s' -> m_ce s' = S (m_ce s))%nat.
Proof.
  intros [H|g' H10 Hm Eg|g' k s2 H10 Hm Eg Hk1 Hk2 Ew].
  - simpl. repeat split; auto; lia.
  - simpl. repeat split; auto; lia.
  - apply check_win_frame in Ew. simpl in Ew. destruct Ew as (-> & -> & -> & _ & -> & -> & -> & -> & -> & -> & _ & _ & _ & ->).
    repeat split; auto; lia.
Qed.
Lemma chord_frame s x y s' o : chord_result s x y s' o ->
  m_row s' = m_row s /\ m_column s' = m_column s /\ m_board s' = m_board s /\
  m_left s' = m_left s /\ m_right s' = m_right s /\ m_double s' = S (m_double s) /\
  m_mouse s' = m_mouse s /\ m_mid s' = m_mid s /\
  (m_ce s <= m_ce s' <= S (m_ce s))%nat /\ (m_solved s <= m_solved s')%nat /\
  (m_solved s < m_solved s' -> m_ce s' = S (m_ce s))%nat.
Proof.
  intros [H|g' n us s2 Hr Eg Hlen Hu1 Hu2 Hu3 Ew].
  - simpl. repeat split; auto; lia.
  - apply check_win_frame in Ew. simpl in Ew. destruct Ew as (-> & -> & -> & _ & -> & -> & -> & -> & -> & -> & _ & _ & _ & ->).
    generalize (count (fun q => chord_cell s x y q && island_cellb (m_row s) (m_column s) (m_board s) q)
                 (zone (m_row s) (m_column s) x y)). intros c. repeat split; auto; lia.
Qed.
Lemma right_frame s x y s' o : right_result s x y s' o ->
  m_row s' = m_row s /\ m_column s' = m_column s /\ m_board s' = m_board s /\ m_state s' = m_state s /\
  m_left s' = m_left s /\ m_right s' = S (m_right s) /\ m_double s' = m_double s /\
  m_mouse s' = m_mouse s /\ m_mid s' = m_mid s /\ m_solved s' = m_solved s /\
  (m_ce s <= m_ce s' <= S (m_ce s))%nat /\ (cell (m_gb s) (x, y) < 10 -> m_ce s' = m_ce s).
Proof.
  intros [H|fl' ce' H10 Hc _ _|H]; simpl; repeat split; auto; try lia.
Qed.

(** ** no panic *)
Definition notflag (m : mouse_state) : bool :=
  match m with UpDownNotFlag | ChordingNotFlag => true | _ => false end.
Definition NF (s : mb) : Prop :=
  (notflag (m_mouse s) = true -> (1 <= m_right s)%nat) /\
  (m_state s = Ready \/ m_state s = PreFlaging -> notflag (m_mouse s) = false).

(** positions that the events accept: in the board, or the single out-of-board position
    (row, column) for events that never look at the board there *)
Definition fine_pos (row column : nat) (e : event) (p : pos) : Prop :=
  inb row column p \/
  (p = (row, column) /\ e <> e_rc /\ e <> e_r /\ e <> e_m /\ e <> e_mr /\ e <> e_pf).
Definition fine (s : mb) (e : event) (p : pos) : Prop :=
  fine_pos (m_row s) (m_column s) e p /\
  (e = e_pf -> m_state s = Ready \/ m_state s = PreFlaging -> cell (m_gb s) p = 10).

Lemma in_board_iff s p : in_board s p = true <-> inb (m_row s) (m_column s) p.
Proof. unfold in_board, inb. rewrite andb_true_iff, !Nat.ltb_lt. tauto. Qed.
Lemma corner_iff s p : at_corner s p = true <-> p = (m_row s, m_column s).
Proof.
  unfold at_corner. destruct p as [i j]; cbn [fst snd]. rewrite andb_true_iff, !Nat.eqb_eq. split; [intros []|intros E; injection E]; intros; subst; auto.
Qed.
Lemma pos_eta (p : pos) : (fst p, snd p) = p. Proof. now destruct p. Qed.

Section Total.
Variable s : mb.
Hypothesis HI : Inv s.
Hypothesis Hlv : live (m_state s).

Lemma chord_total p : inb (m_row s) (m_column s) p ->
  exists s' o, chording_click s (fst p) (snd p) = Ok (s', Some o) /\ chord_result s (fst p) (snd p) s' o.
Proof.
  intros Hp. destruct (inv_live HI Hlv) as (Hleg & Hrow & Hrect & Hgood & Hptr).
  apply chording_click_ok; auto.
Qed.
Lemma right_total p : inb (m_row s) (m_column s) p ->
  exists s' o, right_click s (fst p) (snd p) = Ok (s', Some o) /\ right_result s (fst p) (snd p) s' o.
Proof.
  intros Hp. destruct (inv_live HI Hlv) as (Hleg & Hrow & Hrect & Hgood & Hptr).
  apply right_click_ok; auto; try (now rewrite pos_eta); try apply (i_flag HI Hlv).
Qed.
Lemma left_total p : inb (m_row s) (m_column s) p ->
  exists s' o, left_click s (fst p) (snd p) = Ok (s', Some o) /\ left_result s (fst p) (snd p) s' o.
Proof.
  intros Hp. destruct (inv_live HI Hlv) as (Hleg & Hrow & Hrect & Hgood & Hptr).
  apply left_click_ok; auto.
Qed.
Lemma chord_at_total p : inb (m_row s) (m_column s) p \/ p = (m_row s, m_column s) ->
  exists s' o, chord_at s p = Ok (s', o) /\ m_mouse s' = m_mouse s /\ m_right s' = m_right s.
Proof.
  intros Hp. unfold chord_at. destruct (at_corner s p) eqn:Ec.
  - do 2 eexists. split; [reflexivity|]. auto.
  - destruct Hp as [Hp| ->]; [|rewrite (proj2 (corner_iff s _) eq_refl) in Ec; discriminate].
    destruct (chord_total Hp) as (s' & o & E & Hr). rewrite E. do 2 eexists. split; [reflexivity|].
    apply chord_frame in Hr. tauto.
Qed.
Lemma left_at_total p : inb (m_row s) (m_column s) p \/ p = (m_row s, m_column s) ->
  exists s' o, left_at s p = Ok (s', o) /\ m_mouse s' = m_mouse s /\ m_right s' = m_right s.
Proof.
  intros Hp. unfold left_at. destruct (at_corner s p) eqn:Ec.
  - do 2 eexists. split; [reflexivity|]. auto.
  - destruct Hp as [Hp| ->]; [|rewrite (proj2 (corner_iff s _) eq_refl) in Ec; discriminate].
    destruct (left_total Hp) as (s' & o & E & Hr). rewrite E. do 2 eexists. split; [reflexivity|].
    apply left_frame in Hr. tauto.
Qed.
Lemma chord_at_right_total p : inb (m_row s) (m_column s) p \/ p = (m_row s, m_column s) ->
  (1 <= m_right s)%nat ->
  exists s' o, chord_at_right s p = Ok (s', o) /\ m_mouse s' = m_mouse s.
Proof.
  intros Hp Hr. unfold chord_at_right, usub. destruct (Nat.leb_spec 1 (m_right s)); [|lia]. cbn [bind].
  unfold chord_at. change (at_corner (w_right s (m_right s - 1)) p) with (at_corner s p).
  destruct (at_corner s p) eqn:Ec.
  - do 2 eexists. split; [reflexivity|]. auto.
  - destruct Hp as [Hp| ->]; [|rewrite (proj2 (corner_iff s _) eq_refl) in Ec; discriminate].
    destruct (inv_live HI Hlv) as (Hleg & Hrow & Hrect & Hgood & Hptr).
    destruct (@chording_click_ok (w_right s (m_right s - 1)) Hleg Hrow Hrect Hgood Hptr (fst p) (snd p)) as (s' & o & E & Hr').
    { now rewrite pos_eta. }
    rewrite E. do 2 eexists. split; [reflexivity|]. apply chord_frame in Hr'. tauto.
Qed.
End Total.

(** The state after an event, when it was live, never goes back before Playing except from
    PreFlaging; used to keep [NF]. *)
Lemma right_at_total s p w : Inv s -> live (m_state s) -> inb (m_row s) (m_column s) p ->
  exists s' o, right_click (w_mouse s w) (fst p) (snd p) = Ok (s', Some o) /\
    right_result (w_mouse s w) (fst p) (snd p) s' o.
Proof. intros HI Hlv Hp. apply (@right_total (w_mouse s w) HI Hlv p Hp). Qed.

Ltac caseif := match goal with |- context [if ?b then _ else _] => destruct b end.
Ltac finish := do 2 eexists; split; [reflexivity|].

Definition not_early (s : mb) : Prop := m_state s <> Ready /\ m_state s <> PreFlaging.

Lemma check_win_late s1 s' : not_early s1 -> check_win s1 = Ok s' -> not_early s'.
Proof.
  unfold check_win, is_win. intros H E. apply bind_ok in E as ([s2 w] & E & E2). injection E2 as <-.
  apply bind_ok in E as (r & _ & E). destruct r as [[[i j]|]|]; injection E as <- <-; auto. split; discriminate.
Qed.
Lemma chord_late s x y s' o : not_early s -> chording_click s x y = Ok (s', o) -> not_early s'.
Proof.
  unfold chording_click. intros H E. apply bind_ok in E as (w & _ & E).
  destruct ((w =? 0) || (8 <=? w)); [injection E as <- <-; exact H|].
  apply bind_ok in E as ([[cells fl] bv] & _ & E). destruct (_ && _); [|injection E as <- <-; exact H].
  apply bind_ok in E as (s1 & E1 & E). apply bind_ok in E as (n & _ & E). apply bind_ok in E as (g & _ & E).
  apply bind_ok in E as (s2 & E2 & E). injection E as <- <-.
  eapply check_win_late; [|exact E2]. unfold not_early; simpl.
  revert E1. apply foldM_inv_partial with (P := not_early); [exact H|].
  intros s3 [i j] s4 _ H3 E3. apply bind_ok in E3 as (v & _ & E3). injection E3 as <-.
  destruct (v =? -1); auto. split; discriminate.
Qed.
Lemma left_late s x y s' o : not_early s -> left_click s x y = Ok (s', o) -> not_early s'.
Proof.
  unfold left_click. intros H E. apply bind_ok in E as (w & _ & E).
  destruct (negb (w =? 10)); [injection E as <- <-; exact H|].
  apply bind_ok in E as (v & _ & E). destruct (v =? 0).
  - apply bind_ok in E as (r & _ & E). apply bind_ok in E as (g & _ & E). apply bind_ok in E as (s2 & E2 & E).
    injection E as <- <-. eapply check_win_late; [|exact E2]. unfold not_early; simpl. destruct (fst r); exact H.
  - destruct (v =? -1).
    + apply bind_ok in E as (g & _ & E). injection E as <- <-. split; discriminate.
    + apply bind_ok in E as (g & _ & E). apply bind_ok in E as (k & _ & E). apply bind_ok in E as (s2 & E2 & E).
      injection E as <- <-. eapply check_win_late; [|exact E2]. unfold not_early; simpl. destruct k; exact H.
Qed.
Lemma right_late s x y s' o : not_early s -> right_click s x y = Ok (s', o) -> not_early s'.
Proof.
  unfold right_click. intros H E. apply bind_ok in E as (w & _ & E).
  destruct (w <? 10); [injection E as <- <-; exact H|].
  apply bind_ok in E as (v & _ & E). destruct (negb (v =? -1)).
  - destruct (w =? 10); [apply bind_ok in E as (g & _ & E); injection E as <- <-; exact H|].
    destruct (w =? 11); [|injection E as <- <-; exact H].
    apply bind_ok in E as (g & _ & E). apply bind_ok in E as (f & _ & E). injection E as <- <-; exact H.
  - destruct (w =? 10); [apply bind_ok in E as (g & _ & E); injection E as <- <-; simpl; destruct (existsb _ _); exact H|].
    destruct (w =? 11); [|injection E as <- <-; exact H].
    apply bind_ok in E as (g & _ & E). apply bind_ok in E as (f & _ & E). injection E as <- <-; exact H.
Qed.
Lemma chord_at_late s p s' o : not_early s -> chord_at s p = Ok (s', o) -> not_early s'.
Proof. intros H. unfold chord_at, ret. destruct (at_corner s p); [intros E; injection E as <- <-; auto|now apply chord_late]. Qed.
Lemma left_at_late s p s' o : not_early s -> left_at s p = Ok (s', o) -> not_early s'.
Proof. intros H. unfold left_at, ret. destruct (at_corner s p); [intros E; injection E as <- <-; auto|now apply left_late]. Qed.
Lemma chord_at_right_late s p s' o : not_early s -> chord_at_right s p = Ok (s', o) -> not_early s'.
Proof. intros H E. unfold chord_at_right in E. apply bind_ok in E as (r & _ & E). eapply chord_at_late; [|exact E]. exact H. Qed.

Lemma step_playing_late s e p s' o : m_state s = Playing -> step_playing s e p = Ok (s', o) -> not_early s'.
Proof.
  intros Hst E. assert (H : not_early s) by (unfold not_early; rewrite Hst; split; discriminate).
  destruct e; cbn [step_playing] in E; unfold ret, fail in E; try (injection E as <- <-; exact H);
   try (match type of E with match m_mouse s with _ => _ end = _ => idtac end;
        destruct (m_mouse s); try (injection E as <- <-; exact H);
        try (eapply chord_at_late; [|exact E]; exact H); try (eapply chord_at_right_late; [|exact E]; exact H);
        try (eapply left_at_late; [|exact E]; exact H)).
  - destruct (in_board s p); [|injection E as <- <-; exact H]. apply bind_ok in E as (w & _ & E). eapply right_late; [|exact E]; exact H.
  - eapply chord_late; [|exact E]; exact H.
  - apply bind_ok in E as (w & _ & E). eapply right_late; [|exact E]; exact H.
  - destruct (negb (m_mid _)); [|injection E as <- <-; exact H]. eapply chord_late; [|exact E]; exact H.
Qed.

Lemma NF_late s : not_early s -> (notflag (m_mouse s) = true -> (1 <= m_right s)%nat) -> NF s.
Proof. intros [H1 H2] H. split; auto. intros [?|?]; contradiction. Qed.

Lemma step_playing_total s e p : Inv s -> m_state s = Playing -> NF s -> fine_pos (m_row s) (m_column s) e p ->
  exists s' o, step_playing s e p = Ok (s', o) /\ NF s'.
Proof.
  intros HI Hst [Hnf _] Hfine. assert (Hlv : live (m_state s)) by (rewrite Hst; unfold live; auto).
  assert (Hp : inb (m_row s) (m_column s) p \/ p = (m_row s, m_column s)) by (unfold fine_pos in Hfine; tauto).
  enough (H : exists s' o, step_playing s e p = Ok (s', o) /\ (notflag (m_mouse s') = true -> (1 <= m_right s')%nat)).
  { destruct H as (s' & o & E & H). exists s', o. split; auto. apply NF_late; auto. eapply step_playing_late; eauto. }
  assert (Hkeep : forall w, (notflag w = true -> notflag (m_mouse s) = true) ->
     notflag (m_mouse (w_mouse s w)) = true -> (1 <= m_right (w_mouse s w))%nat) by (intros w Hw Hn; apply Hnf, Hw, Hn).
  assert (Hret : forall w n, (notflag w = true -> notflag (m_mouse s) = true) ->
     exists s' o, ret (w_mouse s w) n = Ok (s', o) /\ (notflag (m_mouse s') = true -> (1 <= m_right s')%nat)).
  { intros w n Hw. finish. apply Hkeep; auto. }
  assert (Hca : forall w, notflag w = false -> exists s' o, chord_at (w_mouse s w) p = Ok (s', o) /\ (notflag (m_mouse s') = true -> (1 <= m_right s')%nat)).
  { intros w Hw. destruct (@chord_at_total (w_mouse s w) HI Hlv p Hp) as (s' & o & E & Em & _). exists s', o. split; auto. rewrite Em. cbn [m_mouse w_mouse]. congruence. }
  assert (Hla : forall w, notflag w = false -> exists s' o, left_at (w_mouse s w) p = Ok (s', o) /\ (notflag (m_mouse s') = true -> (1 <= m_right s')%nat)).
  { intros w Hw. destruct (@left_at_total (w_mouse s w) HI Hlv p Hp) as (s' & o & E & Em & _). exists s', o. split; auto. rewrite Em. cbn [m_mouse w_mouse]. congruence. }
  assert (Hcr : forall w, notflag (m_mouse s) = true -> notflag w = false -> exists s' o, chord_at_right (w_mouse s w) p = Ok (s', o) /\ (notflag (m_mouse s') = true -> (1 <= m_right s')%nat)).
  { intros w Hm Hw. destruct (@chord_at_right_total (w_mouse s w) HI Hlv p Hp (Hnf Hm)) as (s' & o & E & Em). exists s', o. split; auto. rewrite Em. cbn [m_mouse w_mouse]. congruence. }
  assert (Hri : inb (m_row s) (m_column s) p -> exists s' o,
     (let* w := get (m_gb s) (fst p) (snd p) in
      right_click (w_mouse s (if w <? 10 then UpDownNotFlag else UpDown)) (fst p) (snd p)) = Ok (s', o) /\
      (notflag (m_mouse s') = true -> (1 <= m_right s')%nat)).
  { intros Hin. rewrite (@get_ok (m_row s) (m_column s)); [|apply HI|now rewrite pos_eta]. cbn [bind].
    match goal with |- context [w_mouse s ?w] => destruct (@right_at_total s p w HI Hlv Hin) as (s' & o & E & Hr) end.
    rewrite E. finish. apply right_frame in Hr. intros _. destruct Hr as (_ & _ & _ & _ & _ & -> & _). lia. }
  assert (Hcc : inb (m_row s) (m_column s) p -> forall m, exists s' o, chording_click (w_mid s m) (fst p) (snd p) = Ok (s', o) /\ (notflag (m_mouse s') = true -> (1 <= m_right s')%nat)).
  { intros Hin m. destruct (@chord_total (w_mid s m) HI Hlv p Hin) as (s' & o & E & Hr). rewrite E. finish.
    apply chord_frame in Hr. destruct Hr as (_ & _ & _ & _ & -> & _ & -> & _). exact Hnf. }
  assert (Hself : exists s' o, ret s 0 = Ok (s', o) /\ (notflag (m_mouse s') = true -> (1 <= m_right s')%nat)).
  { finish. auto. }
  assert (Hfail : exists s' o, fail s = Ok (s', o) /\ (notflag (m_mouse s') = true -> (1 <= m_right s')%nat)).
  { finish. auto. }
  destruct e; cbn [step_playing]; auto;
   try (match goal with |- context [match m_mouse s with _ => _ end] => idtac end;
        destruct (m_mouse s) eqn:Em; auto; try (apply Hret; discriminate); try (apply Hret; auto; fail)).
  - destruct Hfine as [Hin|(_ & Hc & _)]; [|congruence]. rewrite (proj2 (in_board_iff s p) Hin). apply Hri; auto.
  - finish. auto.
  - apply Hcc. destruct Hfine as [Hin|(_ & _ & _ & _ & Hc & _)]; [auto|congruence].
  - apply Hri. destruct Hfine as [Hin|(_ & _ & Hc & _)]; [auto|congruence].
  - destruct (negb (m_mid _)).
    + apply Hcc. destruct Hfine as [Hin|(_ & _ & _ & Hc & _)]; [auto|congruence].
    + finish. auto.
Qed.

Lemma NF_flat s : notflag (m_mouse s) = false -> NF s.
Proof. intros H. split; auto. rewrite H. discriminate. Qed.


Lemma right_any_total s p : rect (m_row s) (m_column s) (m_gb s) -> legal_board (m_row s) (m_column s) (m_board s) ->
  (0 < m_row s)%nat -> (forall q, inb (m_row s) (m_column s) q -> good (m_board s) (m_gb s) q) ->
  m_flag s = nflags (m_row s) (m_column s) (m_gb s) -> inb (m_row s) (m_column s) p ->
  exists s' o, right_click s (fst p) (snd p) = Ok (s', Some o) /\ m_mouse s' = m_mouse s.
Proof.
  intros Hrect Hleg Hrow Hgood Hfl Hp.
  destruct (@right_click_ok s Hleg Hrow Hrect Hgood (fst p) (snd p)) as (s' & o & E & Hr); auto.
  exists s', o. split; auto. apply right_frame in Hr. tauto.
Qed.

Lemma step_ready_total s e p : Inv s -> m_state s = Ready -> NF s -> fine s e p ->
  exists s' o, step_ready s e p = Ok (s', o) /\ NF s'.
Proof.
  intros HI Hst HNF [Hfine Hpf]. assert (Hlv : live (m_state s)) by (rewrite Hst; unfold live; auto).
  destruct (inv_live HI Hlv) as (Hleg & Hrow & Hrect & Hgood & Hptr).
  destruct HNF as [_ Hm]. specialize (Hm (or_introl Hst)).
  assert (Hright : forall w n, notflag w = false -> inb (m_row s) (m_column s) p -> exists s' o,
    right_click (w_state (w_preflag (w_mouse s w) n) PreFlaging) (fst p) (snd p) = Ok (s', o) /\ NF s').
  { intros w n Hw Hp.
    destruct (@right_any_total (w_state (w_preflag (w_mouse s w) n) PreFlaging) p Hrect Hleg Hrow Hgood (i_flag HI Hlv) Hp)
      as (s' & o & E & Em). exists s', (Some o). split; auto. apply NF_flat. now rewrite Em. }
  assert (Hret : forall s1 n, notflag (m_mouse s1) = false -> exists s' o, ret s1 n = Ok (s', o) /\ NF s').
  { intros s1 n H. finish. now apply NF_flat. }
  assert (Hfail : exists s' o, fail s = Ok (s', o) /\ NF s').
  { finish. now apply NF_flat. }
  destruct e; cbn [step_ready]; auto;
   try (match goal with |- context [match m_mouse s with _ => _ end] => idtac end;
        destruct (m_mouse s) eqn:Em; auto; try (apply Hret; reflexivity); try (apply Hret; rewrite Em; reflexivity); try discriminate Hm).
  - apply Hret. destruct (in_board _ _); reflexivity.
  - destruct Hfine as [Hin|(_ & Hc & _)]; [|congruence].
    change (in_board (w_mouse s UpDown) p) with (in_board s p).
    rewrite (proj2 (in_board_iff s p) Hin). apply Hright; auto.
  - destruct Hfine as [Hin|(_ & _ & _ & _ & _ & Hc)]; [|congruence].
    rewrite (@get_ok (m_row s) (m_column s)); [|exact Hrect|exact Hin]. cbn [bind].
    rewrite pos_eta, (Hpf eq_refl (or_introl Hst)). cbn [Z.eqb Pos.eqb].
    destruct (@right_any_total (w_state (w_preflag s (S (m_preflag s))) PreFlaging) p Hrect Hleg Hrow Hgood (i_flag HI Hlv) Hin)
      as (s' & o & E & Em). exists s', (Some o). split; auto. apply NF_flat. now rewrite Em.
Qed.

Lemma step_preflag_total s e p : Inv s -> m_state s = PreFlaging -> NF s -> fine s e p ->
  exists s' o, step_preflag s e p = Ok (s', o) /\ NF s'.
Proof.
  intros HI Hst HNF [Hfine Hpf]. assert (Hlv : live (m_state s)) by (rewrite Hst; unfold live; auto).
  destruct (inv_live HI Hlv) as (Hleg & Hrow & Hrect & Hgood & Hptr).
  destruct HNF as [_ Hm]. specialize (Hm (or_intror Hst)).
  assert (Hp : inb (m_row s) (m_column s) p \/ p = (m_row s, m_column s)) by (unfold fine_pos in Hfine; tauto).
  assert (Hright : forall s1, notflag (m_mouse s1) = false -> m_row s1 = m_row s -> m_column s1 = m_column s ->
    m_board s1 = m_board s -> m_gb s1 = m_gb s -> m_flag s1 = m_flag s -> inb (m_row s) (m_column s) p -> exists s' o,
    right_click s1 (fst p) (snd p) = Ok (s', o) /\ NF s').
  { intros s1 Hw E1 E2 E3 E4 E5 Hin.
    destruct (@right_any_total s1 p) as (s' & o & E & Em); rewrite ?E1, ?E2, ?E3, ?E4, ?E5; auto.
    - apply (i_flag HI Hlv).
    - exists s', (Some o). split; auto. apply NF_flat. now rewrite Em. }
  assert (Hret : forall s1 n, notflag (m_mouse s1) = false -> exists s' o, ret s1 n = Ok (s', o) /\ NF s').
  { intros s1 n H. finish. now apply NF_flat. }
  assert (Hfail : exists s' o, fail s = Ok (s', o) /\ NF s').
  { finish. now apply NF_flat. }
  assert (Hca : forall w, notflag w = false -> exists s' o, chord_at (w_mouse s w) p = Ok (s', o) /\ NF s').
  { intros w Hw. destruct (@chord_at_total (w_mouse s w) HI Hlv p Hp) as (s' & o & E & Em & _). exists s', o. split; auto. apply NF_flat. rewrite Em. exact Hw. }
  destruct e; cbn [step_preflag step_playing]; auto;
   try (match goal with |- context [match m_mouse s with _ => _ end] => idtac end;
        destruct (m_mouse s) eqn:Em; auto; try (apply Hret; reflexivity); try (apply Hret; rewrite Em; reflexivity); try discriminate Hm).
  - (* lr, DownUp *) destruct (at_corner s p) eqn:Ec.
    { cbv zeta. caseif; apply Hret; reflexivity. }
    destruct Hp as [Hin|Hp]; [|rewrite (proj2 (corner_iff s p) Hp) in Ec; discriminate].
    rewrite (@get_ok (m_row s) (m_column s)); [|exact Hrect|exact Hin]. cbn [bind].
    destruct (Z.eqb_spec (cell (m_gb s) (fst p, snd p)) 10) as [E10|E10].
    + cbn [m_mouse w_state]. rewrite Em.
      assert (HI' : Inv (w_mouse (w_state s Playing) UpUp)).
      { constructor; try apply HI; try discriminate; cbn; try (intros [?|?]; discriminate); intros _; first
          [apply (i_live HI Hlv)|apply (i_flag HI Hlv)|apply (i_ptr HI Hlv)|apply (i_unfin HI Hlv)]. }
      destruct (@left_at_total (w_mouse (w_state s Playing) UpUp) HI' (or_intror (or_intror eq_refl)) p (or_introl Hin)) as (s' & o & E & Em' & _).
      exists s', o. split; auto. apply NF_flat. now rewrite Em'.
    + cbn [m_mouse w_mouse]. apply Hret; reflexivity.
  - destruct (in_board (w_mouse s UpDown) p) eqn:Eb.
    2:{ cbn [m_mouse w_mouse]. apply Hret; reflexivity. }
    assert (Hin : inb (m_row s) (m_column s) p) by (apply (in_board_iff (w_mouse s UpDown)); exact Eb).
    cbn [m_gb w_mouse]. rewrite (@get_ok (m_row s) (m_column s)); [|exact Hrect|exact Hin]. cbn [bind].
    destruct (Z.eqb_spec (cell (m_gb s) (fst p, snd p)) 10) as [E10|E10]; [apply Hright; auto|].
    assert (E11 : cell (m_gb s) p = 11).
    { destruct (@i_pre _ _ _ _ _ _ _ _ _ HI (or_intror Hst) p Hin) as [E|E]; auto. rewrite pos_eta in E10. contradiction. }
    pose proof (i_preflag HI Hst) as Hle. pose proof (@nflags_pos s Hrow (fst p) (snd p) Hin ltac:(now rewrite pos_eta)) as Hge.
    cbn [m_preflag w_mouse]. unfold usub. destruct (Nat.leb_spec 1 (m_preflag s)); [|lia]. cbn [bind].
    caseif; [|apply Hright; auto].
    cbn [m_gb clear_click_num w_mouse w_preflag w_state w_right w_left w_double w_flaged w_flag].
    rewrite (set_ok _ Hrect) by exact Hin. cbn [bind]. apply Hret; reflexivity.
  - cbv zeta. cbn [m_mouse w_mouse]. caseif; cbn [m_mouse w_mouse w_state]; apply Hret; reflexivity.
  - destruct Hfine as [Hin|(_ & _ & _ & _ & _ & Hc)]; [|congruence].
    rewrite (@get_ok (m_row s) (m_column s)); [|exact Hrect|exact Hin]. cbn [bind].
    rewrite pos_eta, (Hpf eq_refl (or_intror Hst)). cbn [Z.eqb Pos.eqb]. apply Hright; auto.
Qed.

Lemma step_total s e p : Inv s -> NF s -> fine s e p -> exists s' o, step s e p = Ok (s', o) /\ NF s'.
Proof.
  intros HI HNF Hf. unfold step. destruct (m_state s) eqn:Hst.
  - now apply step_ready_total. - now apply step_preflag_total. - destruct Hf. now apply step_playing_total.
  - finish; auto. - finish; auto. - finish; auto.
Qed.
Lemma NF_new b s : mb_new b = Ok s -> NF s.
Proof. unfold mb_new. intros E. apply bind_ok in E as (c & _ & E). injection E as <-. now apply NF_flat. Qed.
Lemma NF_reset s : NF (mb_reset s).
Proof. now apply NF_flat. Qed.
