(** * PossBoard: [cal_possibility_onboard] and [cal_is_op_possibility_cells]. *)
From Verif Require Import Base Spec BaseFacts LayMine Matrix Solve Utils SolverSpec MatrixProofs TableProofs EnumProofs SolveProofs PosProofs Possibility PossSpec PossProofs PossSums PossCode PossMain PropsPoss.
Open Scope nat_scope.

Section Onboard.
Variables (row column : nat) (g : board).
Hypothesis Hr : rect row column g.
Hypothesis H0 : 0 < row.

Lemma put_ok pp : forall (p : list (list (option frac))), rect row column p -> NoDup (map fst pp) -> (forall q, In q (map fst pp) -> inb row column q) ->
  exists p', foldM (fun p '((x, y), f) => set p x y (Some f)) pp p = Ok p' /\ rect row column p' /\
    (forall q f, In (q, f) pp -> gcell None p' q = Some f) /\ (forall q, ~ In q (map fst pp) -> gcell None p' q = gcell None p q).
Proof.
  induction pp as [|[[x y] f] pp IH]; intros p Hp Nd Hin.
  - exists p. split; [reflexivity|]. split; auto. split; [intros q f []|auto].
  - cbn [map fst] in Nd, Hin. inversion Nd as [|? ? Hn Nd']; subst. assert (Hb : inb row column (x, y)) by (apply Hin; now left).
    cbn [foldM]. rewrite (set_ok _ Hp Hb). cbn [bind].
    destruct (IH (upd p (x, y) (Some f)) (rect_upd _ _ Hp) Nd' (fun q Hq => Hin q (or_intror Hq))) as (p' & E & Hp' & H1 & H2).
    exists p'. split; auto. split; auto. split.
    + intros q f' [Eq|Hi]; [|now apply H1]. injection Eq as <- <-. rewrite H2 by auto. eapply gcell_upd_eq; eauto.
    + intros q Hq. cbn [map fst In] in Hq. rewrite H2 by tauto. apply gcell_upd_neq. tauto.
Qed.
Definition final (g : board) (pu : frac) (q : pos) (w : option frac) : option frac :=
  if (cell g q =? 11)%Z then Some (1, 1)
  else match w with
       | None => Some (if (cell g q =? 10)%Z then pu else (0, 1))
       | Some f => if (cell g q =? 12)%Z then Some (0, 1) else Some f
       end.
Lemma finish_ok (pu : frac) (p0 : list (list (option frac))) : rect row column p0 ->
  exists p' : list (list (option frac)), foldM (fun (p : list (list (option frac))) '(r, c) =>
              let* v := get g r c in
              let* w := get p r c in
              if (v =? 11)%Z then set p r c (Some (1, 1))
              else match w with
                   | None => set p r c (Some (if (v =? 10)%Z then pu else (0, 1)))
                   | Some _ => if (v =? 12)%Z then set p r c (Some (0, 1)) else Ok p
                   end) (grid row column) p0 = Ok p' /\ rect row column p' /\
     forall q, inb row column q -> gcell None p' q = final g pu q (gcell None p0 q).
Proof.
  intros Hp0.
  assert (G : forall l (p : list (list (option frac))), rect row column p -> NoDup l -> (forall q, In q l -> inb row column q) ->
    exists p' : list (list (option frac)), foldM (fun (p : list (list (option frac))) '(r, c) =>
              let* v := get g r c in
              let* w := get p r c in
              if (v =? 11)%Z then set p r c (Some (1, 1))
              else match w with
                   | None => set p r c (Some (if (v =? 10)%Z then pu else (0, 1)))
                   | Some _ => if (v =? 12)%Z then set p r c (Some (0, 1)) else Ok p
                   end) l p = Ok p' /\ rect row column p' /\
     (forall q, In q l -> gcell None p' q = final g pu q (gcell None p q)) /\ (forall q, ~ In q l -> gcell None p' q = gcell None p q)).
  { intros l. induction l as [|[r c] l IH]; intros p Hp Nd Hin.
    - exists p. split; [reflexivity|]. split; auto. split; [intros q []|auto].
    - inversion Nd as [|? ? Hn Nd']; subst. assert (Hb : inb row column (r, c)) by (apply Hin; now left).
      assert (E1 : exists p1, (let* v := get g r c in
              let* w := get p r c in
              if (v =? 11)%Z then set p r c (Some (1, 1))
              else match w with
                   | None => set p r c (Some (if (v =? 10)%Z then pu else (0, 1)))
                   | Some _ => if (v =? 12)%Z then set p r c (Some (0, 1)) else Ok p
                   end) = Ok p1 /\ rect row column p1 /\ gcell None p1 (r, c) = final g pu (r, c) (gcell None p (r, c)) /\ forall q, q <> (r, c) -> gcell None p1 q = gcell None p q).
      { rewrite (get_ok Hr Hb). cbn [bind]. rewrite (get_gok None Hp Hb). cbn [bind]. unfold final.
        assert (S1 : forall f, exists p1, set p r c (Some f) = Ok p1 /\ rect row column p1 /\ gcell None p1 (r, c) = Some f /\ forall q, q <> (r, c) -> gcell None p1 q = gcell None p q).
        { intros f. exists (upd p (r, c) (Some f)). split; [now apply (set_ok _ Hp)|]. split; [now apply rect_upd|]. split; [eapply gcell_upd_eq; eauto|]. intros q Hq. apply gcell_upd_neq. congruence. }
        destruct (cell g (r, c) =? 11)%Z; [apply S1|]. destruct (gcell None p (r, c)) as [f|] eqn:Ef; [|apply S1].
        destruct (cell g (r, c) =? 12)%Z; [apply S1|]. exists p. split; auto. }
      destruct E1 as (p1 & E1 & Hp1 & V1 & O1). cbn [foldM]. rewrite E1. cbn [bind].
      destruct (IH p1 Hp1 Nd' (fun q Hq => Hin q (or_intror Hq))) as (p' & E & Hp' & V & O). exists p'. split; auto. split; auto. split.
      + intros q [<-|Hq]; [rewrite O by auto; exact V1|]. rewrite V by auto. f_equal. apply O1. intros ->. contradiction.
      + intros q Hq. cbn [In] in Hq. rewrite O by tauto. apply O1. intros ->. tauto. }
  destruct (G (grid row column) p0 Hp0) as (p' & E & Hp' & V & _).
  - apply NoDup_positions.
  - intros q Hq. now apply in_positions.
  - exists p'. split; auto. split; auto. intros q Hq. apply V. now apply in_positions.
Qed.
End Onboard.

Lemma mine_count row column g M q : inb row column q ->
  n_worlds_mine row column g M q = if (cell g q =? 11)%Z then n_worlds row column g M else if (cell g q =? 10)%Z then n_worlds_at row column g M q else 0.
Proof.
  intros Hq. unfold n_worlds_mine, n_worlds, n_worlds_at. unfold with_flags, flaggedb. destruct (Z.eqb_spec (cell g q) 11).
  - apply count_ext. intros s _. now rewrite andb_true_r.
  - cbn [orb]. destruct (Z.eqb_spec (cell g q) 10); auto. rewrite count_b1. apply sumn_zero. intros s Hs.
    unfold mines_at. rewrite mem_false; [now rewrite andb_false_r|]. intros Hi. apply subs_incl in Hs. apply Hs in Hi. unfold covered_cells in Hi. apply filter_In in Hi as [_ Hi].
    unfold coveredb in Hi. apply Z.eqb_eq in Hi. contradiction.
Qed.

(** C33 on the board: the entry of every cell is the probability of a mine there. *)
Theorem C33_onboard_partial : forall row column g M r, satisfiable row column g -> proper row column g -> small_blocks g ->
  r <= M -> n_worlds row column g r <> 0 ->
  exists P range, cal_possibility_onboard g (Count M) = Ok (P, range) /\ rect row column P /\
    forall i j, inb row column (i, j) -> exists f, get P i j = Ok f /\ is_prob f (n_worlds_mine row column g M (i, j)) (n_worlds row column g M).
Proof.
  intros row column g M r Hsat Hprop Hsmall HM Hw. pose proof Hsat as (Hr & H0 & _).
  destruct (@C33_cal_possibility_partial row column g M Hsat Hprop Hsmall) as (_ & _ & H). destruct (H r HM Hw) as (p & pu & range & len & E & Nd & Hf & Hv & Hi & _). clear H.
  unfold cal_possibility_onboard. rewrite (nrows_ok Hr), (ncolsR_ok Hr H0). cbn [bind]. rewrite E. cbn [bind].
  destruct (@put_ok row column p (mkboard row column None) (rect_mkboard _ _ _) Nd) as (p1 & E1 & Hp1 & V1 & O1). { intros q Hq. apply Hf in Hq. apply Hq. }
  rewrite E1. cbn [bind]. destruct (@finish_ok row column g Hr pu p1 Hp1) as (p2 & E2 & Hp2 & V2).
  match type of E2 with ?L = _ => match goal with |- context [bind ?X _] => change X with L end end. rewrite E2. cbn [bind].
  do 2 eexists. split; [reflexivity|].
  assert (Hrect : rect row column (map (map (fun o : option frac => match o with Some f => f | None => (0, 1) end)) p2)).
  { destruct Hp2 as [L F]. split; [now rewrite map_length|]. rewrite Forall_forall in *. intros x Hx. apply in_map_iff in Hx as (y & <- & Hy). rewrite map_length. auto. }
  split; auto. intros i j Hb. set (q := (i, j)) in *.
  assert (Eg : get (map (map (fun o : option frac => match o with Some f => f | None => (0, 1) end)) p2) i j = Ok (match gcell None p2 q with Some f => f | None => (0, 1) end)).
  { refine (eq_trans (get_gok (0, 1) Hrect Hb) _). f_equal. unfold gcell, q. cbn [fst snd]. destruct Hb as [B1 B2]. cbn [fst snd] in B1, B2. pose proof (rect_row Hp2 B1) as Lr. destruct Hp2 as [L2 _].
    rewrite (@nth_map_lt _ _ _ p2 i [] []) by exact (eq_ind_r (fun n => i < n) B1 L2). rewrite (@nth_map_lt _ _ _ _ j (0, 1) None) by exact (eq_ind_r (fun n => j < n) B2 Lr). reflexivity. }
  eexists. split; [exact Eg|]. clear Eg. rewrite V2 by auto. rewrite (mine_count g M Hb). unfold final.
  destruct (Z.eqb_spec (cell g q) 11) as [|N11]; [split; cbn; lia|].
  destruct (in_dec pos_eq_dec q (map fst p)) as [Hin|Hout].
  - apply in_map_iff in Hin as ([q' [a b]] & Eq & Hin). cbn [fst] in Eq. subst q'. rewrite (V1 q (a, b) Hin). destruct (Hv q a b Hin) as [-> ->].
    assert (Hfr : front_cell row column g q) by (apply Hf; apply in_map_iff; exists (q, (n_worlds_at row column g M q, n_worlds row column g M)); auto).
    destruct Hfr as (_ & Hc & _). rewrite Hc. cbn. split; cbn; auto.
  - rewrite O1 by auto. rewrite gcell_mkboard by auto. destruct (Z.eqb_spec (cell g q) 10) as [Hc|Hc]; [|split; cbn; lia].
    apply Hi. split; auto. split; auto. intros z Hz Hn Hnum. apply Hout, Hf. split; auto. split; auto. exists z. auto.
Qed.
Print Assumptions C33_onboard_partial.
