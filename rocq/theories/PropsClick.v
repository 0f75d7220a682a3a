(** * PropsClick: the exact effect of one mouse gesture in a running game (C52-C54). *)
From Verif Require Import Base Spec BaseFacts LayMine LayMineProofs Metrics MetricsProofs
  Refresh RefreshProofs BBBVProofs MineBoard OpProofs MineBoardProofs MineBoardFrame GameStats PropsGame.
Open Scope Z_scope.

(** The visible board of [s'] is that of [s] with exactly the cells opened by clicking [clicks]
    (the clicked cells and what spreads from opened zeros, [opens] of Spec.v) showing their numbers. *)
Definition reveals (row column : nat) (clicks : list pos) (s s' : mb) : Prop :=
  forall q, inb row column q ->
    (opens row column (m_board s) (m_gb s) clicks q -> cell (m_gb s') q = cell (m_board s) q) /\
    (~ opens row column (m_board s) (m_gb s) clicks q -> cell (m_gb s') q = cell (m_gb s) q).
(** nothing the player sees changes *)
Definition same_view (s s' : mb) : Prop :=
  m_gb s' = m_gb s /\ m_state s' = m_state s /\ m_ce s' = m_ce s /\ m_flag s' = m_flag s /\ m_solved s' = m_solved s.
(** the game is won if every safe cell now shows its number; otherwise a safe cell is still covered and it goes on *)
Definition ends_or_goes_on (row column : nat) (s s' : mb) : Prop :=
  (m_state s' = Win /\ forall q, inb row column q -> cell (m_board s) q <> -1 -> cell (m_gb s') q = cell (m_board s) q) \/
  (m_state s' = Playing /\ exists q, inb row column q /\ cell (m_board s) q <> -1 /\ 10 <= cell (m_gb s') q).

Definition covered_near (row column : nat) (s : mb) (p q : pos) : Prop :=
  inb row column q /\ adj p q /\ cell (m_gb s) q = 10.
Definition flags_near (row column : nat) (s : mb) (p : pos) : nat :=
  adj_count row column (fun q => cell (m_gb s) q =? 11) p.

Inductive left_effect (row column : nat) (p : pos) (s s' : mb) : Prop :=
| left_nothing : cell (m_gb s) p <> 10 -> same_view s s' -> left_effect row column p s s'
| left_mine : cell (m_gb s) p = 10 -> cell (m_board s) p = -1 ->
    m_state s' = Loss -> cell (m_gb s') p = 15 -> m_ce s' = m_ce s -> left_effect row column p s s'
| left_opens : cell (m_gb s) p = 10 -> cell (m_board s) p <> -1 ->
    reveals row column [p] s s' -> m_ce s' = S (m_ce s) -> m_flag s' = m_flag s ->
    ends_or_goes_on row column s s' ->
    left_effect row column p s s'.

Inductive chord_effect (row column : nat) (p : pos) (s s' : mb) : Prop :=
| chord_nothing :
    ~ (1 <= cell (m_gb s) p <= 8 /\ cell (m_gb s) p = Z.of_nat (flags_near row column s p) /\
       exists q, covered_near row column s p q) ->
    same_view s s' -> chord_effect row column p s s'
| chord_opens cells :
    1 <= cell (m_gb s) p <= 8 -> cell (m_gb s) p = Z.of_nat (flags_near row column s p) ->
    cells <> [] -> (forall q, In q cells <-> covered_near row column s p q) ->
    (forall q, In q cells -> cell (m_board s) q <> -1) ->
    reveals row column cells s s' -> m_ce s' = S (m_ce s) -> m_flag s' = m_flag s ->
    ends_or_goes_on row column s s' ->
    chord_effect row column p s s'
| chord_mine q :
    1 <= cell (m_gb s) p <= 8 -> cell (m_gb s) p = Z.of_nat (flags_near row column s p) ->
    covered_near row column s p q -> cell (m_board s) q = -1 ->
    (forall t, covered_near row column s p t -> cell (m_gb s') t = if cell (m_board s) t =? -1 then 15 else cell (m_board s) t) ->
    (m_state s' = Loss) -> chord_effect row column p s s'.

Section One.
Variable s : mb.
Hypothesis HI : Inv s.
Hypothesis Hst : m_state s = Playing.
Notation row := (m_row s). Notation column := (m_column s).
Lemma live_playing : live (m_state s). Proof. rewrite Hst. unfold live. auto. Qed.

Lemma opened_ends clicks g' s1 s' :
  (forall p, In p clicks -> inb row column p /\ cell (m_gb s) p = 10) -> clicks <> [] -> (forall p, In p clicks -> cell (m_board s) p <> -1) ->
  refresh_board (m_board s) (m_gb s) clicks = Ok g' ->
  m_row s1 = row -> m_column s1 = column -> m_board s1 = m_board s -> m_gb s1 = g' ->
  m_px s1 = m_px s -> m_py s1 = m_py s -> m_flag s1 = m_flag s -> m_state s1 = Playing ->
  check_win s1 = Ok s' -> ends_or_goes_on row column s s'.
Proof.
  intros Hcl Hne Hs Eg E1 E2 E3 E4 E5 E6 E7 E8 Ew.
  assert (Ex : existsb (is_mine (m_board s)) clicks = false).
  { apply not_true_iff_false. intros Ex. apply existsb_exists in Ex as (q & Hq & Em). apply (Hs q Hq). unfold is_mine in Em. lia. }
  destruct (@opened_inv s clicks g' s1 s' HI Hst Hcl Eg E1 E2 E3 E4 E5 E6 E7) as (HI' & Hw); [now rewrite Ex|exact Ew|].
  destruct Hw as [[Hd ->]|[Hn (px & py & ->)]].
  - left. split; [reflexivity|]. intros q Hq Hb. pose proof (i_win HI' eq_refl (q := q)) as G. cbn [m_row m_column m_board m_gb w_state] in G |- *. rewrite E1, E2, E3 in G. auto.
  - right. split; [exact E8|]. destruct clicks as [|p l]; [contradiction|].
    destruct (i_unfin HI') as (q & Hq & Hb & Hc).
    + cbn [m_state w_py w_px]. rewrite E8. unfold live. auto.
    + exists p. cbn [m_board m_row m_column w_py w_px]. rewrite E1, E2, E3. split; [apply Hcl; now left|apply Hs; now left].
    + cbn [m_board m_row m_column m_gb w_py w_px] in *. rewrite E1, E2 in Hq. rewrite E3 in Hb. exists q. auto.
Qed.

Lemma left_click_effect x y s' o : inb row column (x, y) -> left_click s x y = Ok (s', o) ->
  left_effect row column (x, y) s s' /\ m_left s' = S (m_left s) /\ m_right s' = m_right s /\ m_double s' = m_double s /\ m_mouse s' = m_mouse s.
Proof.
  intros Hp E. destruct (@left_click_ok s (i_legal HI) (i_row HI) (i_rect HI) (i_live HI live_playing) (i_ptr HI live_playing) x y Hp) as (s2 & o2 & E2 & R).
  rewrite E in E2. injection E2 as <- ->. pose proof (left_frame R) as F. split; [|tauto].
  assert (Hcl : cell (m_gb s) (x, y) = 10 -> forall p, In p [(x, y)] -> inb row column p /\ cell (m_gb s) p = 10) by (intros H p [<-|[]]; auto).
  destruct R as [H|g' H10 Hm Eg|g' k s2 H10 Hm Eg Hk1 Hk2 Ew].
  - apply left_nothing; auto. repeat split.
  - destruct (@refresh_live row column (m_board s) (i_legal HI) (i_row HI) (m_gb s) [(x, y)] (i_rect HI) (i_live HI live_playing) (Hcl H10)) as (g2 & Eg2 & _ & _ & _ & _ & _ & HL).
    rewrite Eg in Eg2. injection Eg2 as <-. apply left_mine; auto; cbn [m_gb w_state w_gb].
    destruct (HL ltac:(exists (x, y); split; [now left|auto]) (x, y) Hp) as [A _]. rewrite A by (constructor; now left). unfold shown. rewrite Hm. reflexivity.
  - destruct (@refresh_live row column (m_board s) (i_legal HI) (i_row HI) (m_gb s) [(x, y)] (i_rect HI) (i_live HI live_playing) (Hcl H10)) as (g2 & Eg2 & Hr2 & Hdec & Hob & _ & HS & _).
    rewrite Eg in Eg2. injection Eg2 as <-. specialize (HS ltac:(intros p [<-|[]]; auto)).
    pose proof (check_win_frame Ew) as (_ & _ & Fb & Fg & _ & _ & _ & Fc & _ & _ & Ff & _). cbn in Fb, Fg, Fc, Ff.
    apply left_opens; auto.
    + intros q Hq. rewrite Fg. destruct (HS q Hq) as [A B]. split; auto. intros H. apply A; auto.
    + eapply opened_ends; [exact (Hcl H10)|discriminate| |exact Eg|..|exact Ew]; try reflexivity; [|exact Hst]. intros p [<-|[]]; auto.
Qed.

Lemma flag8 x y : cell (m_gb s) (x, y) = 8 -> cell (m_gb s) (x, y) = Z.of_nat (flags_near row column s (x, y)) -> (exists q, covered_near row column s (x, y) q) -> False.
Proof.
  intros E8 EF (q & Hq & Ha & Hc). rewrite E8 in EF. unfold flags_near in EF.
  pose proof (adj_count_le row column (fun t => (cell (m_gb s) t =? 11) || posb t q) (x, y)) as L.
  enough (adj_count row column (fun t => (cell (m_gb s) t =? 11) || posb t q) (x, y) = S (adj_count row column (fun t => cell (m_gb s) t =? 11) (x, y))) by lia.
  unfold adj_count.
  assert (K : forall l, NoDup l -> In q l -> count (fun t => adjb (x, y) t && ((cell (m_gb s) t =? 11) || posb t q)) l = S (count (fun t => adjb (x, y) t && (cell (m_gb s) t =? 11)) l)).
  { assert (K0 : forall l, ~ In q l -> count (fun t => adjb (x, y) t && ((cell (m_gb s) t =? 11) || posb t q)) l = count (fun t => adjb (x, y) t && (cell (m_gb s) t =? 11)) l).
    { intros l Hn. apply count_ext. intros t Ht. destruct (posb_spec t q) as [->|]; [contradiction|]. now rewrite orb_false_r. }
    induction l as [|t l IH]; intros Nd Hi; [destruct Hi|]. inversion Nd; subst. rewrite !count_cons. destruct (posb_spec t q) as [->|Hne].
    - rewrite K0 by auto. rewrite Hc. assert (Ab : adjb (x, y) q = true) by (destruct (adjb_spec (x, y) q); auto). rewrite Ab. cbn. lia.
    - destruct Hi as [|Hi]; [contradiction|]. rewrite (IH H2 Hi). rewrite orb_false_r. lia. }
  apply K; [apply NoDup_positions|now apply in_positions].
Qed.

Lemma chording_click_effect x y s' o : inb row column (x, y) -> chording_click s x y = Ok (s', o) ->
  chord_effect row column (x, y) s s' /\ m_double s' = S (m_double s) /\ m_left s' = m_left s /\ m_right s' = m_right s /\ m_mouse s' = m_mouse s /\
  m_mid s' = m_mid s.
Proof.
  intros Hp E. destruct (@chording_click_ok s (i_legal HI) (i_row HI) (i_rect HI) (i_live HI live_playing) (i_ptr HI live_playing) x y Hp) as (s2 & o2 & E2 & R).
  rewrite E in E2. injection E2 as <- ->. pose proof (chord_frame R) as F. split; [|tauto].
  pose proof R as R0. destruct R0 as [H|g' n us s2 Hr Eg Hlen Hu1 Hu2 Hu3 Ew].
  - apply chord_nothing; [|repeat split]. intros (A & B & C). destruct (Z.eq_dec (cell (m_gb s) (x, y)) 8) as [E8|E8]; [now apply (@flag8 x y)|].
    apply H. split; [lia|]. split; auto.
  - assert (Hcl : forall p, In p (chord_cells s x y) -> inb row column p /\ cell (m_gb s) p = 10) by (intros p Hq; now apply in_chord_cells in Hq).
    destruct (@refresh_live row column (m_board s) (i_legal HI) (i_row HI) (m_gb s) (chord_cells s x y) (i_rect HI) (i_live HI live_playing) Hcl) as (g2 & Eg2 & Hr2 & Hdec & Hob & _ & HS & HL).
    rewrite Eg in Eg2. injection Eg2 as <-. destruct Hr as (A & B & C).
    pose proof (check_win_frame Ew) as (_ & _ & Fb & Fg & _ & _ & _ & Fc & _ & _ & Ff & _). cbn in Fb, Fg, Fc, Ff.
    destruct (existsb (is_mine (m_board s)) (chord_cells s x y)) eqn:Ex.
    + pose proof Ex as Ex0. apply existsb_exists in Ex0 as (q & Hq & Em). unfold is_mine in Em. apply Z.eqb_eq in Em. specialize (HL (ex_intro _ q (conj Hq Em))).
      apply chord_mine with (q := q); auto; [lia|now apply in_chord_cells| |].
      * intros t Ht. pose proof Ht as (Ht1 & _). rewrite Fg. destruct (HL t Ht1) as [K _]. rewrite K by (constructor; now apply in_chord_cells). unfold shown.
        destruct (Z.eqb_spec (cell (m_board s) t) (-1)) as [->|Hn]; auto. pose proof (safe_range (i_legal HI) (i_row HI) Ht1 Hn). destruct (Z.ltb_spec (cell (m_board s) t) 0); [lia|auto].
      * apply (W_chord HI Hst Hp R) with (g' := g'); auto. split; auto.
    + assert (Hs : forall q, In q (chord_cells s x y) -> cell (m_board s) q <> -1).
      { intros q Hq Em. assert (existsb (is_mine (m_board s)) (chord_cells s x y) = true); [|congruence]. apply existsb_exists. exists q. split; auto. unfold is_mine. lia. }
      specialize (HS Hs). apply chord_opens with (cells := chord_cells s x y); auto; [lia| | | |].
      * destruct C as (q & Hq). intros E0. assert (Hi : In q (chord_cells s x y)) by now apply in_chord_cells. rewrite E0 in Hi. destruct Hi.
      * intros q. apply in_chord_cells.
      * intros q Hq. rewrite Fg. destruct (HS q Hq) as [K1 K2]. split; auto. intros H. apply K1; auto.
      * eapply opened_ends; [exact Hcl| |exact Hs|exact Eg|..|exact Ew]; try reflexivity; [|exact Hst].
        destruct C as (q & Hq). intros E0. assert (Hi : In q (chord_cells s x y)) by now apply in_chord_cells. rewrite E0 in Hi. destruct Hi.
Qed.
End One.

(** ** gestures *)
Definition full_left (q p : pos) : list call := [Step e_lc q; Step e_lr p].
Definition full_right (p q : pos) : list call := [Step e_rc p; Step e_rr q].
(** three ways to chord at [p] with both buttons up before *)
Definition full_chord (how : nat) (q1 q2 p q3 : pos) : list call :=
  match how with
  | O => [Step e_mc q1; Step e_mr p]
  | S O => [Step e_lc q1; Step e_rc q2; Step e_rr p; Step e_lr q3]
  | _ => [Step e_lc q1; Step e_rc q2; Step e_lr p; Step e_rr q3]
  end.

Lemma not_corner row column s p : m_row s = row -> m_column s = column -> inb row column p -> at_corner s p = false.
Proof. intros <- <- [H1 H2]. apply not_true_iff_false. rewrite corner_iff. intros ->. cbn in *. lia. Qed.

(** ** C52 *)
Theorem C52_left_click_effect : forall row column b cs s q p,
  played row column b cs s -> m_state s = Playing -> m_mouse s = UpUp -> inb row column p ->
  exists s', exec s (full_left q p) = Ok s' /\ left_effect row column p s s' /\
    m_mouse s' = UpUp /\ m_left s' = S (m_left s) /\ m_right s' = m_right s /\ m_double s' = m_double s.
Proof.
  intros row column b cs s q p H Hst Hm Hp. destruct (played_inv H) as (HI & <- & <- & _). destruct p as [x y].
  set (t := w_mouse (w_mouse s DownUp) UpUp). assert (HIt : Inv t) by exact HI.
  destruct (@left_total t HIt ltac:(cbn; rewrite Hst; unfold live; auto) (x, y) Hp) as (s' & o & E & _).
  exists s'. split.
  - unfold exec, full_left. cbn [foldM call1]. unfold step at 1. rewrite Hst. cbn [step_playing]. rewrite Hm. cbn [ret bind fst].
    unfold step. cbn [m_state w_mouse]. rewrite Hst. cbn [step_playing m_mouse w_mouse]. unfold left_at. rewrite (@not_corner (m_row s) (m_column s)) by auto.
    cbn [fst snd] in *. fold t. rewrite E. reflexivity.
  - destruct (@left_click_effect t HIt Hst x y s' (Some o) Hp E) as (A & B & C & D & F). split; [|tauto].
    destruct A; [apply left_nothing|apply left_mine|apply left_opens]; auto.
Qed.
Print Assumptions C52_left_click_effect.

(** ** C53 *)
Theorem C53_chording_effect : forall row column b cs s how q1 q2 p q3,
  played row column b cs s -> m_state s = Playing -> m_mouse s = UpUp -> inb row column p ->
  exists s', exec s (full_chord how q1 q2 p q3) = Ok s' /\ chord_effect row column p s s' /\
    m_double s' = S (m_double s) /\ m_left s' = m_left s /\ m_right s' = m_right s.
Proof.
  intros row column b cs s how q1 q2 p q3 H Hst Hm Hp. destruct (played_inv H) as (HI & <- & <- & _). destruct p as [x y].
  assert (K : forall t, t = w_mid (w_mid s true) false \/ t = w_mouse (w_mouse (w_mouse s DownUp) Chording) DownUpAfterChording \/ t = w_mouse (w_mouse (w_mouse s DownUp) Chording) UpDown ->
     exists s' o, chording_click t x y = Ok (s', Some o) /\ chord_effect (m_row s) (m_column s) (x, y) s s' /\ m_double s' = S (m_double s) /\ m_left s' = m_left s /\ m_right s' = m_right s /\ m_mouse s' = m_mouse t).
  { intros t Ht. assert (HIt : Inv t) by (destruct Ht as [->|[->| ->]]; exact HI). assert (Et : m_state t = Playing) by (destruct Ht as [->|[->| ->]]; exact Hst).
    assert (Hpt : inb (m_row t) (m_column t) (x, y)) by (destruct Ht as [->|[->| ->]]; exact Hp).
    destruct (@chord_total t HIt ltac:(rewrite Et; unfold live; auto) (x, y) Hpt) as (s' & o & E & _). exists s', o. split; auto.
    destruct (@chording_click_effect t HIt Et x y s' (Some o) Hpt E) as (A & B & C & D & F & G).
    destruct Ht as [->|[->| ->]]; (split; [destruct A; [apply chord_nothing|eapply chord_opens|eapply chord_mine]; eauto|auto]). }
  destruct how as [|[|how]].
  - destruct (K _ (or_introl eq_refl)) as (s' & o & E & A & B & C & D & _). exists s'. split; [|auto].
    unfold exec, full_chord. cbn [foldM call1]. unfold step at 1. rewrite Hst. cbn [step_playing ret bind fst]. unfold step. cbn [m_state w_mid]. rewrite Hst.
    cbn [step_playing fst snd]. rewrite E. reflexivity.
  - destruct (K _ (or_intror (or_introl eq_refl))) as (s' & o & E & A & B & C & D & F).
    exists (if match m_state s' with Playing => true | _ => false end then w_mouse s' UpUp else s'). split.
    + unfold exec, full_chord. cbn [foldM call1]. unfold step at 1. rewrite Hst. cbn [step_playing]. rewrite Hm. cbn [ret bind fst].
      unfold step at 1. cbn [m_state w_mouse]. rewrite Hst. cbn [step_playing m_mouse w_mouse ret bind fst].
      unfold step at 1. cbn [m_state w_mouse]. rewrite Hst. cbn [step_playing m_mouse w_mouse]. unfold chord_at. rewrite (@not_corner (m_row s) (m_column s)) by auto.
      cbn [fst snd]. rewrite E. cbn [bind fst]. cbn [m_mouse w_mouse] in F.
      unfold step. assert (Hs' : m_state s' = Playing \/ m_state s' = Win \/ m_state s' = Loss).
      { destruct A as [_ (_ & -> & _)|cells _ _ _ _ _ _ _ _ [[-> _]|[-> _]]|q _ _ _ _ _ ->]; auto. }
      destruct Hs' as [Es|[Es|Es]]; rewrite Es; cbn [step_playing ret bind fst]; auto. rewrite F. reflexivity.
    + destruct (m_state s') eqn:Es; [auto 6|auto 6| |auto 6..].
      split; [|auto]. destruct A as [A1 A2|cells A1 A2 A3 A4 A5 A6 A7 A8 A9|q A1 A2 A3 A4 A5 A6]; [apply chord_nothing|eapply chord_opens|eapply chord_mine]; eauto.
  - destruct (K _ (or_intror (or_intror eq_refl))) as (s' & o & E & A & B & C & D & F).
    exists (if match m_state s' with Playing => true | _ => false end then w_mouse s' UpUp else s'). split.
    + unfold exec, full_chord. cbn [foldM call1]. unfold step at 1. rewrite Hst. cbn [step_playing]. rewrite Hm. cbn [ret bind fst].
      unfold step at 1. cbn [m_state w_mouse]. rewrite Hst. cbn [step_playing m_mouse w_mouse ret bind fst].
      unfold step at 1. cbn [m_state w_mouse]. rewrite Hst. cbn [step_playing m_mouse w_mouse]. unfold chord_at. rewrite (@not_corner (m_row s) (m_column s)) by auto.
      cbn [fst snd]. rewrite E. cbn [bind fst]. cbn [m_mouse w_mouse] in F.
      unfold step. assert (Hs' : m_state s' = Playing \/ m_state s' = Win \/ m_state s' = Loss).
      { destruct A as [_ (_ & -> & _)|cells _ _ _ _ _ _ _ _ [[-> _]|[-> _]]|q _ _ _ _ _ ->]; auto. }
      destruct Hs' as [Es|[Es|Es]]; rewrite Es; cbn [step_playing ret bind fst]; auto. rewrite F. reflexivity.
    + destruct (m_state s') eqn:Es; [auto 6|auto 6| |auto 6..].
      split; [|auto]. destruct A as [A1 A2|cells A1 A2 A3 A4 A5 A6 A7 A8 A9|q A1 A2 A3 A4 A5 A6]; [apply chord_nothing|eapply chord_opens|eapply chord_mine]; eauto.
Qed.
Print Assumptions C53_chording_effect.

(** ** C54 *)
(** A right click toggles the flag of a covered cell and does nothing else to the view; it is effective
    (ce) exactly when it flags a mine that is not in [m_flaged], the mines flagged so far. *)
Inductive right_effect (row column : nat) (p : pos) (s s' : mb) : Prop :=
| right_nothing : cell (m_gb s) p < 10 -> same_view s s' -> m_flaged s' = m_flaged s -> right_effect row column p s s'
| right_flags : cell (m_gb s) p = 10 -> cell (m_gb s') p = 11 ->
    (forall q, inb row column q -> q <> p -> cell (m_gb s') q = cell (m_gb s) q) ->
    m_flag s' = S (m_flag s) -> m_state s' = m_state s -> m_solved s' = m_solved s ->
    (cell (m_board s) p = -1 /\ ~ In p (m_flaged s) /\ m_ce s' = S (m_ce s) \/
     (cell (m_board s) p <> -1 \/ In p (m_flaged s)) /\ m_ce s' = m_ce s) ->
    (forall q, In q (m_flaged s') <-> In q (m_flaged s) \/ q = p /\ cell (m_board s) p = -1) -> right_effect row column p s s'
| right_unflags : cell (m_gb s) p = 11 -> cell (m_gb s') p = 10 ->
    (forall q, inb row column q -> q <> p -> cell (m_gb s') q = cell (m_gb s) q) ->
    m_flag s = S (m_flag s') -> m_state s' = m_state s -> m_solved s' = m_solved s -> m_ce s' = m_ce s -> m_flaged s' = m_flaged s ->
    right_effect row column p s s'.
Theorem C54_right_click_effect : forall row column b cs s p q,
  played row column b cs s -> m_state s = Playing -> m_mouse s = UpUp -> inb row column p ->
  exists s', exec s (full_right p q) = Ok s' /\ right_effect row column p s s' /\
    m_mouse s' = UpUp /\ m_right s' = S (m_right s) /\ m_left s' = m_left s /\ m_double s' = m_double s.
Proof.
  intros row column b cs s p q H Hst Hm Hp. destruct (played_inv H) as (HI & <- & <- & _). destruct p as [x y].
  set (t := w_mouse s (if cell (m_gb s) (x, y) <? 10 then UpDownNotFlag else UpDown)). assert (HIt : Inv t) by exact HI.
  assert (Hlv : live (m_state s)) by (rewrite Hst; unfold live; auto).
  destruct (@right_total t HIt Hlv (x, y) Hp) as (s' & o & E & R). cbn [fst snd] in E, R.
  pose proof (right_frame R) as (F1 & F2 & F3 & F4 & F5 & F6 & F7 & F8 & F9 & F10 & _).
  exists (w_mouse s' UpUp). split.
  - unfold exec, full_right. cbn [foldM call1]. unfold step at 1. rewrite Hst. cbn [step_playing]. rewrite Hm.
    assert (Ei : in_board s (x, y) = true) by now apply in_board_iff. rewrite Ei. cbn [fst snd]. rewrite (get_ok (i_rect HI) Hp). cbn [bind]. fold t. rewrite E. cbn [bind fst].
    unfold step. rewrite F4. cbn [m_state t w_mouse]. rewrite Hst. cbn [step_playing]. rewrite F8. cbn [m_mouse t w_mouse]. destruct (cell (m_gb s) (x, y) <? 10); reflexivity.
  - split; [|cbn [m_mouse m_right m_left m_double w_mouse]; auto].
    assert (Hu : forall v z, inb (m_row s) (m_column s) z -> cell (upd (m_gb s) (x, y) v) z = if posb (x, y) z then v else cell (m_gb s) z).
    { intros v z Hz. now rewrite (cell_upd _ _ (i_rect HI) Hp). }
    pose proof (i_flag HI Hlv) as Hfl.
    destruct R as [Hc|fl' ce' Hc Hce1 Hce2 Hfl'|Hc]; cbn [m_gb t w_mouse] in Hc.
    + apply right_nothing; auto. repeat split.
    + cbn in Hce1, Hce2, Hfl'. apply right_flags; cbn [m_gb m_flag m_state m_solved m_ce m_flaged m_board w_flaged w_ce w_flag w_gb w_right w_mouse t]; auto.
      * rewrite Hu by auto. now destruct (posb_spec (x, y) (x, y)).
      * intros z Hz Hn. rewrite Hu by auto. destruct (posb_spec (x, y) z); [congruence|auto].
      * destruct (Z.eq_dec (cell (m_board s) (x, y)) (-1)) as [Em|Em]; [|right; split; [auto|destruct Hce1; [auto|tauto]]].
        destruct (in_dec (fun a b : pos => match posb_spec a b with ReflectT _ e => left e | ReflectF _ n => right n end) (x, y) (m_flaged s)) as [Hi|Hi]; [right; split; [auto|destruct Hce1; [auto|tauto]]|left; tauto].
    + assert (Hpos : (1 <= m_flag s)%nat) by (rewrite Hfl; destruct (Nat.eq_dec (nflags (m_row s) (m_column s) (m_gb s)) 0) as [En|]; [exfalso; exact (nflags_zero En Hp Hc)|lia]).
      apply right_unflags; cbn [m_gb m_flag m_state m_solved m_ce m_flaged m_board w_flaged w_ce w_flag w_gb w_right w_mouse t]; auto; [| |lia].
      * rewrite Hu by auto. now destruct (posb_spec (x, y) (x, y)).
      * intros z Hz Hn. rewrite Hu by auto. destruct (posb_spec (x, y) z); [congruence|auto].
Qed.
Print Assumptions C54_right_click_effect.
(** hypotheses met, with a visible effect of each kind *)
Definition demo_play : list call := [Step e_lc (0, 1); Step e_lr (0, 1)]%nat.
Example C52_case : exists s, played 3 3 demo_board demo_play s /\ m_state s = Playing /\ m_mouse s = UpUp /\
  (let* s' := exec s (full_left (0, 0) (2, 0)) in Ok (m_gb s', m_state s'))%nat = Ok ([[0; 1; 10]; [0; 1; 1]; [0; 0; 0]], Win) /\
  (let* s' := exec s (full_right (0, 2) (2, 0) ++ full_chord 0 (0, 0) (0, 0) (0, 1) (0, 0)) in Ok (m_gb s', m_state s'))%nat = Ok ([[0; 1; 11]; [0; 1; 1]; [0; 0; 0]], Win).
Proof.
  eexists. split; [apply run_played; [exact demo_legal|lia|vm_compute; reflexivity]|].
  split; [vm_compute; reflexivity|]. split; [vm_compute; reflexivity|]. split; vm_compute; reflexivity.
Qed.
