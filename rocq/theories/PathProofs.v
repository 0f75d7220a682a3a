(** * PathProofs: the moves that make up the path of an event (lemmas for C78). *)
From Verif Require Import Base Spec BaseFacts LayMine LayMineProofs Metrics Refresh MineBoard OpProofs
  MineBoardProofs MineBoardFrame BoardCache Evf EvfSpec EvfProofs BaseVideo GameStats ReplayProofs PropsEvf PropsSetters PropsGame PropsReplay.
Open Scope Z_scope.

(** The opening click is on the board. *)
Lemma pre_step_open s e p s' a : Inv s -> m_state s = Ready \/ m_state s = PreFlaging ->
  step s e p = Ok (s', Some a) ->
  quiet s' a \/ ((fst p < m_row s)%nat /\ (snd p < m_column s)%nat).
Proof.
  intros HI [Hst|Hst] E; unfold step in E; rewrite Hst in E.
  - left. destruct e; cbn [step_ready] in E; try discriminate E;
      try (match type of E with match m_mouse s with _ => _ end = _ => idtac end; destruct (m_mouse s); try discriminate E);
      try (unfold ret in E; injection E as <- <-; split; [right; exact Hst|lia]).
    + destruct (in_board _ p); unfold ret in E; injection E as <- <-; (split; [auto|lia]).
    + destruct (in_board _ p); [|unfold ret in E; injection E as <- <-; split; [auto|lia]].
      eapply (@right_quiet s); [exact HI|auto|..|exact E]; reflexivity.
    + apply bind_ok in E as (w & _ & E). destruct (w =? 10); [|discriminate].
      eapply (@right_quiet s); [exact HI|auto|..|exact E]; reflexivity.
  - destruct e; cbn [step_preflag] in E; try (discriminate E);
      try (left; eapply fall_quiet in E; [exact E|exact HI|auto|tauto]);
      try (match type of E with match m_mouse s with _ => _ end = _ => idtac end; destruct (m_mouse s) eqn:Em; try discriminate E);
      try (unfold ret in E; injection E as <- <-; left; split; [left; exact Hst|lia]).
    all: try (left; eapply fall_quiet in E; [exact E|exact HI|auto|rewrite Em; right; right; right; right; split; [auto|discriminate]]).
    + destruct (at_corner s p) eqn:Ec.
      { unfold ret in E. injection E as <- <-. left. split; [|lia]. destruct (_ =? 0)%nat; cbn; auto. }
      apply bind_ok in E as (w & Ew & E). right. destruct (get_inv 0 (i_rect HI) Ew) as [Hp _]. exact Hp.
    + left. destruct (in_board _ p).
      2:{ eapply fall_quiet in E; [exact E|exact HI|left; exact Hst|]. right; right; right; left. split; auto. discriminate. }
      apply bind_ok in E as (w & Ew & E). destruct (w =? 10).
      * eapply (@right_quiet s); [exact HI|auto|..|exact E]; reflexivity.
      * apply bind_ok in E as (n & Eu & E). destruct (Nat.eqb_spec n 0) as [->|E0].
        -- apply bind_ok in E as (g' & Es & E). unfold ret in E. injection E as <- <-. split; [right; reflexivity|lia].
        -- eapply (@right_quiet s); [exact HI|auto|..|exact E]; auto.
    + left. destruct (in_board _ p && _); cbn in E; unfold ret in E; injection E as <- <-; (split; [cbn; auto|lia]).
    + left. unfold ret in E. injection E as <- <-. destruct (in_board _ p && _); (split; [cbn; auto|lia]).
    + left. apply bind_ok in E as (w & Ew & E). destruct (w =? 10) eqn:E10; [|discriminate].
      eapply (@right_quiet s); [exact HI|auto|..|exact E]; auto.
Qed.

(** ** Moves *)
Definition move (a b : rec) : Z * Z := (r_y b - r_y a, r_x b - r_x a).
Fixpoint moves (l : list rec) : list (Z * Z) :=
  match l with
  | a :: t => match t with [] => [] | b :: _ => move a b :: moves t end
  | [] => []
  end.
Lemma moves_snoc l a b : moves (l ++ [a; b]) = moves (l ++ [a]) ++ [move a b].
Proof.
  induction l as [|x l IH]; [reflexivity|]. destruct l as [|y l]; [reflexivity|]. cbn [app moves] in *. now rewrite IH.
Qed.
Lemma moves_length l : length (moves l) = (length l - 1)%nat.
Proof. induction l as [|x [|y l] IH]; auto. cbn [moves length] in *. lia. Qed.
Definition insideb (h w : Z) (r : rec) : bool := negb ((h <=? r_y r) || (w <=? r_x r)).
Lemma last_inside_snoc h w rs r : last_inside h w (rev (rs ++ [r])) = if insideb h w r then Ok r else last_inside h w (rev rs).
Proof. rewrite rev_app_distr. reflexivity. Qed.
Lemma last_inside_filter h w l r pre : last_inside h w (rev (pre ++ l)) = Ok r -> filter (insideb h w) l <> [] ->
  exists l1 l2, l = l1 ++ r :: l2 /\ insideb h w r = true /\ filter (insideb h w) l2 = [].
Proof.
  induction l as [|x l IH] using rev_ind; [cbn; congruence|]. rewrite app_assoc, last_inside_snoc. destruct (insideb h w x) eqn:Ex.
  - intros [= <-] _. exists l, []. auto.
  - intros E Hn. rewrite filter_app in Hn. cbn [filter] in Hn. rewrite Ex, app_nil_r in Hn. destruct (IH E Hn) as (l1 & l2 & -> & H1 & H2).
    exists l1, (l2 ++ [x]). split; [now rewrite <- app_assoc|]. split; auto. rewrite filter_app, H2. cbn. now rewrite Ex.
Qed.

Section Log.
Variables (b : board) (row column pix : nat).
Hypothesis Hleg : legal_board row column b.
Hypothesis Hrow : (0 < row)%nat.
Notation H := (Z.of_nat row * Z.of_nat pix).
Notation W := (Z.of_nat column * Z.of_nat pix).

(** From the opening click [q] on, the path of an event is the walk through the positions on the
    board, and from the last of them to the event. *)
Definition walked (rs : list rec) : Prop := exists pre q mid, rs = pre ++ q :: mid /\ (2 <= r_useful q)%nat /\
  Forall (fun r => (r_useful r < 2)%nat) pre /\ insideb H W q = true /\
  map r_hops (pre ++ [q]) = map (fun _ => []) (pre ++ [q]) /\
  forall m1 r m2, mid = m1 ++ r :: m2 -> r_hops r = moves (filter (insideb H W) (q :: m1) ++ [r]).
Lemma logged_walked rs m bs d : logged b row column pix rs m bs d ->
  (Forall (fun r => (r_useful r < 2)%nat) rs /\ map r_hops rs = map (fun _ => []) rs) \/ (walked rs /\ m_state m <> Ready /\ m_state m <> PreFlaging).
Proof.
  induction 1 as [|rs m bs d r m' a Hl IH Hpix Hlv Hk Hx Hy E Hnr Hr Hh]; [left; split; [constructor|auto]|].
  apply snap_useful in Hr. destruct (logged_inv Hleg Hrow Hl) as (HI & _ & HR & HC & _).
  destruct (logged_delta Hleg Hrow Hl) as [D1 D2].
  assert (Hc : m_state m = Playing \/ (m_state m = Ready \/ m_state m = PreFlaging)) by (unfold live in Hlv; tauto).
  destruct Hc as [Hst|Hst].
  - right. rewrite Hst in Hh. destruct Hh as (r1 & El & Eh).
    destruct IH as [[IH _]|[(pre & q & mid & -> & H1 & H2 & H3 & H4 & H5) _]].
    { exfalso. destruct (D2 Hst) as (pre & q & post & -> & Hu & _). apply Forall_app in IH as [_ IH]. inversion IH; lia. }
    assert (Hne : not_early m') by (unfold step in E; rewrite Hst in E; eapply step_playing_late in E; eauto).
    split; [|exact Hne]. exists pre, q, (mid ++ [r]). split; [now rewrite <- app_assoc|]. do 4 (split; [assumption|]).
    intros m1 s m2 Es. destruct m2 as [|y m2 _] using rev_ind.
    + apply app_inj_tail in Es as [-> ->]. destruct (@last_inside_filter H W (q :: m1) r1 pre El) as (l1 & l2 & Ef & Hi & Hf).
      { cbn [filter]. rewrite H3. discriminate. }
      rewrite Ef, filter_app. cbn [filter]. rewrite Hi, Hf, <- app_assoc. cbn [app]. rewrite moves_snoc. rewrite Eh.
      change (r_y s - r_y r1, r_x s - r_x r1) with (move r1 s). f_equal.
      destruct l1 as [|x l1]; cbn [app] in Ef.
      * injection Ef as <- _. rewrite !map_app in H4. cbn [map] in H4. apply app_inj_tail in H4 as [_ H4]. rewrite H4. reflexivity.
      * injection Ef as <- Ef. now apply H5 in Ef.
    + rewrite app_comm_cons, app_assoc in Es. apply app_inj_tail in Es as [Es _]. eauto.
  - assert (Hh' : r_hops r = []) by (destruct (m_state m); try (exact Hh); destruct Hst; discriminate).
    specialize (D1 Hst). destruct IH as [[_ IH]|[_ [K1 K2]]]; [|exfalso; tauto].
    assert (Hall : map r_hops (rs ++ [r]) = map (fun _ => []) (rs ++ [r])) by (rewrite !map_app, IH; cbn; now rewrite Hh').
    destruct (pre_step_useful HI Hst E) as [[Hq Ha]|[(Hq & -> & _)|(Hq & -> & _)]].
    + left. split; [|exact Hall]. apply Forall_app. split; [exact D1|]. constructor; [lia|constructor].
    + destruct (pre_step_open HI Hst E) as [[Hq' _]|[P1 P2]]; [exfalso; intuition congruence|]. right.
      split; [|intuition congruence]. exists rs, r, []. split; [reflexivity|]. split; [lia|]. split; [exact D1|]. split.
      * rewrite HR in P1. rewrite HC in P2. cbn in P1, P2. unfold insideb. assert (By : r_y r < H) by (apply (@div_lt_mul row pix Hrow); auto; lia). assert (Bx : r_x r < W) by (apply (@div_lt_mul row pix Hrow); auto; lia).
        replace (H <=? r_y r) with false by lia. replace (W <=? r_x r) with false by lia. reflexivity.
      * split; [exact Hall|]. intros [|? m1] s m2; discriminate.
    + left. split; [|exact Hall]. apply Forall_app. split; [exact D1|]. constructor; [lia|constructor].
Qed.
Lemma logged_coords rs m bs d : logged b row column pix rs m bs d -> Forall (fun r => 0 <= r_x r < 65536 /\ 0 <= r_y r < 65536) rs /\ (rs = [] \/ (0 < pix)%nat).
Proof. induction 1; [split; [constructor|auto]|]. split; [|auto]. apply Forall_app. split; [tauto|]. constructor; [auto|constructor]. Qed.
End Log.
