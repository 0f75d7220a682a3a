(** * PropsOpening: C65, the probability that a cell opens an area. *)
From Verif Require Import LinFacts MatrixMeaning Base Spec BaseFacts LayMine Matrix Solve Utils SolverSpec MatrixProofs TableProofs EnumProofs EnumSolve SolveProofs PosProofs Possibility PossSpec PossProofs PossSums PossCode PossMain PropsPoss PossBoard.
From Verif Require PropsSolver.
Open Scope nat_scope.

(** [h] is [g] where the covered cells [L] are marked as safe. *)
Definition marked (row column : nat) (g : board) (L : list pos) (h : board) : Prop :=
  rect row column h /\ (forall q, In q L -> inb row column q /\ cell g q = 10%Z /\ cell h q = 12%Z) /\ (forall q, ~ In q L -> cell h q = cell g q).

Lemma subs_avoid (L : list pos) l : forall h : list pos -> nat,
  sumn (fun s => b1 (forallb (fun q => negb (mem_pos q s)) L) * h s) (subs l) = sumn h (subs (filter (fun q => negb (mem_pos q L)) l)).
Proof.
  induction l as [|a l IH]; intros h.
  - cbn. replace (forallb (fun q => true) L) with true; [cbn; lia|]. symmetry. apply forallb_forall. auto.
  - rewrite subs_cons. cbn [filter]. rewrite IH. destruct (mem_pos a L) eqn:Ea; cbn [negb].
    + rewrite (@sumn_zero _ (fun s => b1 (forallb (fun q => negb (mem_pos q (a :: s))) L) * h (a :: s))); [lia|]. intros s _.
      replace (forallb _ L) with false; auto. symmetry. apply not_true_iff_false. rewrite forallb_forall. intros H. apply mem_pos_true in Ea. specialize (H a Ea). rewrite mem_cons, posb_refl in H. discriminate H.
    + rewrite subs_cons. f_equal. rewrite <- (IH (fun s => h (a :: s))). apply sumn_ext. intros s _. do 2 f_equal. apply forallb_ext_in. intros q Hq. f_equal.
      rewrite mem_cons. destruct (posb_spec q a) as [->|]; auto. exfalso. apply mem_pos_true in Hq. congruence.
Qed.

Section Marked.
Variables (row column : nat) (g h : board) (L : list pos).
Hypothesis Hm : marked row column g L h.

Lemma marked_covered : covered_cells row column h = filter (fun q => negb (mem_pos q L)) (covered_cells row column g).
Proof.
  destruct Hm as (_ & H1 & H2). unfold covered_cells. induction (positions row column) as [|q l IH]; auto. cbn [filter].
  assert (Ch : coveredb h q = (cell h q =? 10)%Z) by reflexivity. assert (Cg : coveredb g q = (cell g q =? 10)%Z) by reflexivity. rewrite Ch, Cg. clear Ch Cg.
  destruct (mem_pos_spec q L) as [Hi|Hi].
  - destruct (H1 q Hi) as (_ & E1 & E2). rewrite E1, E2. cbn [Z.eqb Pos.eqb filter]. rewrite (mem_true Hi). cbn [negb]. exact IH.
  - rewrite (H2 q Hi). destruct (cell g q =? 10)%Z; auto. cbn [filter]. rewrite (mem_false Hi). cbn [negb]. now rewrite IH.
Qed.
Lemma marked_flag q : flaggedb h q = flaggedb g q.
Proof.
  destruct Hm as (_ & H1 & H2). unfold flaggedb. destruct (mem_pos_spec q L) as [Hi|Hi]; [|now rewrite H2]. destruct (H1 q Hi) as (_ & E1 & E2). now rewrite E1, E2.
Qed.
Lemma marked_explains s : (forall q, In q L -> mem_pos q s = false) -> explains row column h s = explains row column g s.
Proof.
  intros Hs. unfold explains, PossSpec.consistentb. apply forallb_ext_in. intros q _.
  assert (Ew : forall p, with_flags h s p = with_flags g s p) by (intros p; unfold with_flags; now rewrite marked_flag).
  replace (adj_count row column (with_flags h s) q) with (adj_count row column (with_flags g s) q) by (unfold adj_count; apply count_ext; intros z _; now rewrite Ew).
  rewrite Ew. destruct Hm as (_ & H1 & H2). destruct (mem_pos_spec q L) as [Hi|Hi]; [|now rewrite H2].
  destruct (H1 q Hi) as (_ & E1 & E2). rewrite E1, E2. cbn. unfold with_flags, flaggedb, mines_at. rewrite E1, (Hs q Hi). reflexivity.
Qed.
Lemma marked_flags : flag_count row column h = flag_count row column g.
Proof. apply count_ext. intros q _. apply marked_flag. Qed.
Theorem marked_free M L' : n_worlds_free row column h M L' = n_worlds_free row column g M (L ++ L').
Proof.
  unfold n_worlds_free. rewrite !count_b1, marked_covered. rewrite <- subs_avoid. apply sumn_ext. intros s Hs.
  assert (El : forallb (fun q => negb (with_flags g s q)) L = forallb (fun q => negb (mem_pos q s)) L).
  { apply forallb_ext_in. intros q Hq. destruct Hm as (_ & H1 & _). destruct (H1 q Hq) as (_ & E1 & _). unfold with_flags, flaggedb, mines_at. now rewrite E1. }
  rewrite forallb_app, El. destruct (forallb (fun q => negb (mem_pos q s)) L) eqn:E; cbn [b1 andb]; [|rewrite andb_false_r; reflexivity].
  rewrite Nat.mul_1_l. f_equal. f_equal.
  - unfold worldb. rewrite marked_flags, marked_explains; auto. rewrite forallb_forall in E. intros q Hq. specialize (E q Hq). now apply negb_true_iff.
  - apply forallb_ext_in. intros q _. f_equal. unfold with_flags. now rewrite marked_flag.
Qed.
End Marked.

Lemma free_nil row column g M : n_worlds_free row column g M [] = n_worlds row column g M.
Proof. apply count_ext. intros s _. cbn. now rewrite andb_true_r. Qed.
Lemma free_one row column g M q : n_worlds_free row column g M [q] + n_worlds_mine row column g M q = n_worlds row column g M.
Proof.
  unfold n_worlds_free, n_worlds_mine, n_worlds. rewrite !count_b1, <- sumn_add. apply sumn_ext. intros s _. cbn [forallb]. rewrite andb_true_r.
  destruct (worldb row column g M s), (with_flags g s q); reflexivity.
Qed.
Lemma free_le row column g M L L' : incl L L' -> n_worlds_free row column g M L' <= n_worlds_free row column g M L.
Proof.
  intros Hi. unfold n_worlds_free. rewrite !count_b1. apply sumn_le. intros s _. destruct (worldb row column g M s); cbn [andb]; auto.
  destruct (forallb (fun q => negb (with_flags g s q)) L') eqn:E; cbn [b1]; [|lia]. replace (forallb _ L) with true; auto. symmetry. rewrite forallb_forall in *. auto.
Qed.
Lemma free_pos row column g M L : n_worlds_free row column g M L <> 0 -> exists s, In s (subs (covered_cells row column g)) /\ worldb row column g M s = true /\ forall q, In q L -> with_flags g s q = false.
Proof.
  intros H. unfold n_worlds_free, count in H. destruct (filter _ _) as [|s l] eqn:E; [now destruct H|].
  assert (Hs : In s (s :: l)) by now left. rewrite <- E in Hs. apply filter_In in Hs as [H1 H2]. apply andb_true_iff in H2 as [H2 H3]. exists s. split; auto. split; auto.
  rewrite forallb_forall in H3. intros q Hq. now apply negb_true_iff, H3.
Qed.

(** C65 (exact arithmetic). A cell that is not open, of a position with [M] mines. If it is possible that
    neither the cell nor a neighbour is a mine, the result is the probability of that: (worlds without a
    mine there) / (worlds). The systems of all positions met on the way must be small. *)
Theorem C65_opening_probability_partial : forall row column g M c, satisfiable row column g -> proper row column g -> inb row column c -> (10 <= cell g c)%Z ->
  (forall q, inb row column q -> (cell g q <= 12)%Z) ->
  (forall h, rect row column h -> (forall q, inb row column q -> cell h q = cell g q \/ cell g q = 10%Z /\ cell h q = 12%Z /\ near c q) -> small_blocks h) ->
  n_worlds_free row column g M (filter (nearb c) (positions row column)) <> 0 ->
  exists f, op_possibility g (Count M) c = Ok f /\ is_prob f (n_worlds_free row column g M (filter (nearb c) (positions row column))) (n_worlds row column g M).
Proof.
  intros row column g M c Hsat Hprop Hc Hopen Hvals Hsmall Hfree. pose proof Hsat as (Hr & H0 & _).
  set (Z0 := filter (nearb c) (positions row column)) in *. set (N := n_worlds row column g M).
  unfold op_possibility. rewrite (nrows_ok Hr), (ncolsR_ok Hr H0). cbn [bind].
  assert (Hz : forall q, In q (zone row column (fst c) (snd c)) <-> In q Z0).
  { intros q. unfold Z0. rewrite filter_In, in_positions, in_zone, <- surjective_pairing. destruct (nearb_spec c q); intuition discriminate. }
  destruct (free_pos Hfree) as (s0 & Hs0 & Hw0 & Hf0).
  assert (Hnoflag : forall q, In q Z0 -> cell g q <> 11%Z).
  { intros q Hq E. specialize (Hf0 q Hq). unfold with_flags, flaggedb in Hf0. rewrite E in Hf0. discriminate Hf0. }
  assert (G : forall todo L h a b, incl todo Z0 -> incl L Z0 -> NoDup todo -> (forall q, In q todo -> ~ In q L) -> marked row column g L h -> is_prob (a, b) (n_worlds_free row column g M L) N ->
     exists a' b' h' L', foldM (fun '(st, gm) '(m, n) =>
      match st with
      | None => Ok (None, gm)
      | Some (a, b) =>
          let* v := get g m n in
          if ((v <? 10)%Z && posb (m, n) c) || (v =? 11)%Z then Ok (None, gm)
          else if (v =? 12)%Z || (v <? 10)%Z then Ok (Some (a, b), gm)
          else
            match cal_possibility_onboard gm (Count M) with
            | Ok (p, _) => let* f := get p m n in
                           let* d := usub (snd f) (fst f) in
                           let* gm := set gm m n 12%Z in
                           Ok (Some (a * d, b * snd f), gm)
            | Err _ => Ok (None, gm)
            | Panic => Panic
            | OutOfFuel => OutOfFuel
            end
      end) todo (Some (a, b), h) = Ok (Some (a', b'), h') /\ is_prob (a', b') (n_worlds_free row column g M L') N /\
        incl L' Z0 /\ forall q, In q Z0 -> cell g q = 10%Z -> In q todo \/ In q L -> In q L').
  { intros todo. induction todo as [|[i j] todo IH]; intros L h a b Hinc HL Nd Hdis Hm Hp.
    - exists a, b, h, L. split; [reflexivity|]. split; auto. split; auto. intros q _ _ [[]|H]. exact H.
    - inversion Nd as [|? ? Hn Nd']; subst. assert (Hq : In (i, j) Z0) by (apply Hinc; now left).
      assert (Hb : inb row column (i, j)) by (unfold Z0 in Hq; apply filter_In in Hq as [Hq _]; now apply in_positions).
      cbn [foldM]. rewrite (get_ok Hr Hb). cbn [bind]. specialize (Hnoflag _ Hq) as N11. specialize (Hvals _ Hb) as Hle. specialize (Hprop _ Hb) as Hge.
      assert (Eopen : (cell g (i, j) <? 10)%Z && posb (i, j) c = false).
      { destruct (posb_spec (i, j) c) as [Ec|]; [|now rewrite andb_false_r]. subst c. destruct (Z.ltb_spec (cell g (i, j)) 10); auto. lia. }
      rewrite Eopen. destruct (Z.eqb_spec (cell g (i, j)) 11) as [|_]; [contradiction|]. cbn [orb].
      destruct (Z.eq_dec (cell g (i, j)) 10) as [E10|N10].
      + rewrite E10. cbn [Z.eqb Z.ltb Z.compare Pos.eqb Pos.compare Pos.compare_cont orb].
        assert (HLq : ~ In (i, j) L) by (apply Hdis; now left).
        pose proof Hm as (Hrh & H1 & H2).
        assert (EF : n_worlds row column h M = n_worlds_free row column g M L) by (rewrite <- free_nil, (marked_free Hm), app_nil_r; reflexivity).
        assert (HF : n_worlds_free row column g M L <> 0) by (pose proof (free_le row column g M HL); lia).
        assert (Hsh : satisfiable row column h).
        { split; auto. split; auto. exists (with_flags h s0). apply (@consistentb_iff row column h (with_flags h s0)). change (explains row column h s0 = true).
          rewrite (marked_explains Hm). - unfold worldb in Hw0. now apply andb_true_iff in Hw0 as [? _].
          - intros q HqL. specialize (Hf0 q (HL q HqL)). unfold with_flags in Hf0. now apply orb_false_iff in Hf0 as [_ ?]. }
        assert (Hph : proper row column h).
        { intros q Hbq. destruct (in_dec pos_eq_dec q L) as [Hi|Hi]; [destruct (H1 q Hi) as (_ & _ & ->); lia|rewrite (H2 q Hi); auto]. }
        assert (Hsm : small_blocks h).
        { apply Hsmall; auto. intros q Hbq. destruct (in_dec pos_eq_dec q L) as [Hi|Hi]; [right|left; auto]. destruct (H1 q Hi) as (_ & E1 & E2). split; auto. split; auto.
          apply HL in Hi. unfold Z0 in Hi. apply filter_In in Hi as [_ Hi]. now destruct (nearb_spec c q). }
        destruct (@C33_onboard_partial row column h M M Hsh Hph Hsm (le_n _)) as (P & range & EP & _ & HP); [rewrite EF; exact HF|].
        destruct (HP i j Hb) as (f & Ef & Hpf). rewrite EP, Ef. cbn [bind]. destruct Hpf as [F1 F2]. rewrite EF in F1, F2.
        pose proof (free_one row column h M (i, j)) as FO. rewrite EF, (marked_free Hm) in FO. specialize (F2 HF).
        assert (Hfle : fst f <= snd f) by nia.
        unfold usub. destruct (Nat.leb_spec (fst f) (snd f)); [|lia]. cbn [bind]. rewrite (set_ok _ Hrh Hb). cbn [bind].
        destruct (IH (L ++ [(i, j)]) (upd h (i, j) 12%Z) (a * (snd f - fst f)) (b * snd f)) as (a' & b' & h' & L' & E & HP' & HL' & Hcov).
        * intros q Hi. apply Hinc. now right.
        * intros q Hi. apply in_app_iff in Hi as [Hi|[<-|[]]]; auto.
        * exact Nd'.
        * intros q Hi Hi2. apply in_app_iff in Hi2 as [Hi2|[<-|[]]]; [apply (Hdis q); auto; now right|contradiction].
        * split; [now apply rect_upd|]. split.
          -- intros q Hi. apply in_app_iff in Hi as [Hi|[<-|[]]].
             ++ destruct (H1 q Hi) as (X1 & X2 & X3). split; auto. split; auto. rewrite cell_upd_neq; auto. intros EE. subst q. contradiction.
             ++ split; auto. split; auto. eapply cell_upd_eq; eauto.
          -- intros q Hi. rewrite in_app_iff in Hi. rewrite cell_upd_neq; [apply H2; tauto|]. intros <-. apply Hi. right. now left.
        * destruct Hp as [P1 P2]. cbn [fst snd] in P1, P2. split; cbn [fst snd].
          -- set (F := n_worlds_free row column g M L) in *. set (F' := n_worlds_free row column g M (L ++ [(i, j)])) in *.
             set (X := n_worlds_mine row column h M (i, j)) in *.
             assert (D : (snd f - fst f) * F = F' * snd f) by (rewrite Nat.mul_sub_distr_r; nia).
             transitivity ((a * N) * (snd f - fst f)); [lia|]. rewrite P1. transitivity (((snd f - fst f) * F) * b); [lia|]. rewrite D. lia.
          -- intros HN. specialize (P2 HN). nia.
        * exists a', b', h', L'. split; [exact E|]. split; auto. split; auto. intros q X1 X2 [[<-|X3]|X3]; apply Hcov; auto; right; apply in_app_iff; [right; now left|now left].
      + assert (Eother : (cell g (i, j) =? 12)%Z || (cell g (i, j) <? 10)%Z = true).
        { destruct (Z.eqb_spec (cell g (i, j)) 12), (Z.ltb_spec (cell g (i, j)) 10); auto. lia. }
        rewrite Eother. cbn [bind].
        destruct (IH L h a b) as (a' & b' & h' & L' & E & HP' & HL' & Hcov); auto.
        * intros q Hi. apply Hinc. now right.
        * intros q Hi. apply Hdis. now right.
        * exists a', b', h', L'. split; [exact E|]. split; auto. split; auto. intros q X1 X2 [[<-|X3]|X3]; auto. contradiction. }
  destruct (G (zone row column (fst c) (snd c)) [] g 1 1) as (a & b & h & L & E & HP & HL & Hcov).
  - intros q Hq. now apply Hz.
  - intros q [].
  - apply NoDup_zone.
  - intros q _ [].
  - split; auto. split; [intros q []|auto].
  - rewrite free_nil. split; cbn; lia.
  - rewrite E. cbn [bind]. exists (a, b). split; auto.
    replace (n_worlds_free row column g M Z0) with (n_worlds_free row column g M L); auto.
    unfold n_worlds_free. apply count_ext. intros s Hs. f_equal. apply eq_true_iff_eq. rewrite !forallb_forall. split; intros H q Hq; [|apply H; auto].
    destruct (Z.eq_dec (cell g q) 10) as [E10|N10]; [apply H, Hcov; auto; left; now apply Hz|].
    unfold with_flags, flaggedb, mines_at. destruct (Z.eqb_spec (cell g q) 11) as [E11|_]; [destruct (Hnoflag q Hq E11)|]. cbn [orb].
    rewrite mem_false; auto. intros Hi. apply (subs_incl Hs) in Hi. unfold covered_cells in Hi. apply filter_In in Hi as [_ Hi]. unfold coveredb in Hi. apply Z.eqb_eq in Hi. contradiction.
Qed.
Print Assumptions C65_opening_probability_partial.

(** A sufficient condition: at most 55 covered cells. *)
Lemma few_covered_small row column g : rect row column g -> 0 < row -> length (covered_cells row column g) <= 55 -> small_blocks g.
Proof.
  intros Hr H0 Hl bl k1 k2 E. destruct (refresh_matrixs_partition Hr H0) as (bl' & k1' & k2' & ns & E' & _ & _ & _ & Nd & Hf & _).
  rewrite E in E'. injection E' as <- _ _. apply Forall_forall. intros B HB. refine (Nat.le_trans _ _ _ _ Hl). apply NoDup_incl_length.
  - clear - Nd HB. induction bl as [|B' bl IH]; [destruct HB|]. cbn [map concat] in Nd. destruct HB as [->|HB]; [now apply NoDup_app_l in Nd|]. apply IH; auto. now apply NoDup_app_r in Nd.
  - intros q Hq. assert (Hc : front_cell row column g q) by (apply Hf, in_vars; eauto). destruct Hc as (A1 & A2 & _). unfold covered_cells. apply filter_In. split; [now apply in_positions|].
    unfold coveredb. rewrite A2. reflexivity.
Qed.

Corollary C65_opening_probability : forall row column g M c, satisfiable row column g -> inb row column c -> (10 <= cell g c)%Z ->
  (forall q, inb row column q -> (0 <= cell g q <= 12)%Z) -> length (covered_cells row column g) <= 55 ->
  n_worlds_free row column g M (filter (nearb c) (positions row column)) <> 0 ->
  exists f, op_possibility g (Count M) c = Ok f /\ is_prob f (n_worlds_free row column g M (filter (nearb c) (positions row column))) (n_worlds row column g M).
Proof.
  intros row column g M c Hsat Hc Hopen Hv Hl Hf. apply C65_opening_probability_partial; auto.
  - intros q Hq. now apply Hv.
  - intros q Hq. now apply Hv.
  - intros h Hr Hh. destruct Hsat as (_ & H0 & _). apply (few_covered_small Hr H0). refine (Nat.le_trans _ _ _ _ Hl). apply NoDup_incl_length; [apply NoDup_filter, NoDup_positions|].
    unfold covered_cells. intros q Hq. apply filter_In in Hq as [A1 A2]. apply filter_In. split; auto. apply in_positions in A1. unfold coveredb in *. apply Z.eqb_eq in A2.
    destruct (Hh q A1) as [E|(E & _)]; apply Z.eqb_eq; congruence.
Qed.
Print Assumptions C65_opening_probability.

(** For a list of cells: one result after the other. *)
Corollary C65_cells : forall g M cells l, cal_is_op_possibility_cells g M cells = Ok l ->
  length l = length cells /\ forall i c, nth_error cells i = Some c -> exists f, nth_error l i = Some f /\ op_possibility g M c = Ok f.
Proof.
  intros g M cells. unfold cal_is_op_possibility_cells. induction cells as [|c cells IH]; cbn [mapM]; intros l E.
  - injection E as <-. split; auto. intros [|i] c H; discriminate H.
  - apply bind_ok in E as (f & E1 & E). apply bind_ok in E as (l' & E2 & E). injection E as <-. destruct (IH l' E2) as [L N]. split; [cbn; congruence|].
    intros [|i] d Hd; cbn in *; [injection Hd as ->; eauto|eauto].
Qed.

(** ** Cases *)
Definition poss_demo : board := [[10; 10; 1; 1]; [10; 10; 1; 10]; [10; 10; 10; 10]]%Z.
Lemma poss_demo_sat : satisfiable 3 4 poss_demo.
Proof. apply (@PropsSolver.satisfiable_ok 3 4 poss_demo (fun p => posb p (1, 3))); [split; [reflexivity|repeat constructor]|lia|reflexivity]. Qed.
Lemma poss_demo_proper : forall q, inb 3 4 q -> (0 <= cell poss_demo q <= 12)%Z.
Proof. intros [i j] [H1 H2]. cbn [fst snd] in *. do 3 (destruct i as [|i]; [do 4 (destruct j as [|j]; [cbn; lia|]); lia|]). lia. Qed.
Example C33_case : satisfiable 3 4 poss_demo /\ proper 3 4 poss_demo /\ small_blocks poss_demo /\
  least_mines 3 4 poss_demo 1 /\ most_mines 3 4 poss_demo 4 /\ n_worlds 3 4 poss_demo 3 = 3 /\ n_worlds_at 3 4 poss_demo 3 (1, 3) = 3 /\
  exists p, cal_possibility poss_demo (Count 3) = Ok (p, (6, 9), (1, 3, 4), 6) /\ In ((1, 3), (3, 3)) p.
Proof.
  split; [exact poss_demo_sat|]. split; [intros q Hq; now apply poss_demo_proper|].
  split. { apply (@few_covered_small 3 4); [apply poss_demo_sat|lia|]. vm_compute. lia. }
  assert (Hw : forall M, n_worlds 3 4 poss_demo M = match M with 1 => 1 | 2 => 3 | 3 => 3 | 4 => 1 | _ => 0 end).
  { intros M. unfold n_worlds, worldb. destruct M as [|[|[|[|[|M]]]]]; vm_compute; reflexivity. }
  split. { split; [rewrite Hw; lia|]. intros M HM. rewrite Hw. destruct M; [auto|lia]. }
  split. { split; [rewrite Hw; lia|]. intros M HM. rewrite Hw. destruct M as [|[|[|[|[|M]]]]]; lia. }
  split; [apply Hw|]. split; [vm_compute; reflexivity|].
  eexists. split; [vm_compute; reflexivity|]. cbn. tauto.
Qed.
Example C65_case : n_worlds_free 3 4 poss_demo 2 (filter (nearb (2, 0)) (positions 3 4)) = 1 /\ n_worlds 3 4 poss_demo 2 = 3 /\
  cal_is_op_possibility_cells poss_demo (Count 2) [(2, 0); (0, 0)] = Ok [(24, 72); (24, 72)].
Proof. vm_compute. repeat split. Qed.

(** Refutation of the property without its last hypothesis: three covered cells, two mines. The middle
    cell can not be an opening, its probability is 0; the code reports 0 * (0 / 0), NaN. *)
Theorem C65_nan_refuted : exists g M c, satisfiable 1 3 g /\ inb 1 3 c /\ n_worlds 1 3 g M = 3 /\
  n_worlds_free 1 3 g M (filter (nearb c) (positions 1 3)) = 0 /\ op_possibility g (Count M) c = Ok (0, 0).
Proof.
  exists [[10; 10; 10]]%Z, 2, (0, 1). split; [apply (@PropsSolver.satisfiable_ok 1 3 _ (fun _ => false)); [split; [reflexivity|repeat constructor]|lia|reflexivity]|].
  split; [split; cbn; lia|]. vm_compute. repeat split.
Qed.
Print Assumptions C65_nan_refuted.
