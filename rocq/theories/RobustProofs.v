(** * RobustProofs: [cal_possibility] on positions without an explanation. *)
From Verif Require Import Base Spec BaseFacts LayMine Matrix Solve Utils UtilsProofs SolverSpec LinFacts SolveProofs ChunkProofs MatrixProofs CombineProofs TableProofs EnumProofs EnumBlock EnumSolve PosProofs MatrixMeaning
  Possibility PossSpec PossProofs PossSums PossCode PossMain PropsPoss PossBoard MarkWorlds.
Open Scope nat_scope.

(** [v], a set of mines among the covered cells, explains every number that touches a covered cell. *)
Definition explains_front (row column : nat) (g : board) (v : placement) : Prop :=
  forall n, front_number row column g n -> number_ok row column g v n.
(** No such number has more flags around it than it says. *)
Definition not_overflagged (row column : nat) (g : board) : Prop :=
  forall n, front_number row column g n -> (Z.of_nat (adj_count row column (flaggedb g) n) <= cell g n)%Z.
(** [v] has [k] mines among the cells next to numbers. *)
Definition front_mines (row column : nat) (g : board) (v : placement) (k : nat) : Prop :=
  exists l, NoDup l /\ (forall q, In q l <-> front_cell row column g q) /\ count v l = k.

Definition pieces_of (bl : list block) : R (list piece) :=
  let* sq := mapM (fun B => let* (A, x, groups) := combine_cells (map fst (eqs B)) (vars B) in Ok (B, A, x, groups)) bl in
  mapM (fun '(B, A, x, groups) => let* t := cal_table_minenum_recursion A x (map snd (eqs B)) groups in Ok (Piece B groups t)) sq.
Definition nonneg (B : block) : Prop := Forall (fun e => (0 <= snd e)%Z) (eqs B).

Lemma pieces_cases bl : Forall good_block bl -> Forall nonneg bl -> Forall (fun B => length (vars B) <= ENUM_LIMIT) bl ->
  (exists W, Forall2 windowed bl W /\ pieces_of bl = Ok (map pieceB (combine bl W))) \/
  ((forall v, ~ sats v bl) /\ pieces_of bl = Err 1).
Proof.
  intros Hg Hs Hl. unfold pieces_of.
  set (f := fun B => (B, squeezed (map fst (eqs B)) (length (vars B)), sel (0, 0) (vars B) (reps (map fst (eqs B)) (length (vars B))), groupsB B)).
  rewrite (@mapM_ok _ _ _ f).
  2:{ intros B HB. rewrite Forall_forall in Hg. destruct (Hg B HB) as [Hgd _]. now rewrite (combine_B Hgd). }
  cbn [bind]. induction Hg as [|B bl [Hg Hne] Hgs IH].
  - left. exists []. split; [constructor|reflexivity].
  - inversion Hs as [|? ? Hs1 Hs2]; subst. inversion Hl as [|? ? Hl1 Hl2]; subst.
    specialize (IH Hs2 Hl2). cbn [map mapM].
    assert (Hfew : length (map (group (map fst (eqs B)) (length (vars B))) (reps (map fst (eqs B)) (length (vars B)))) <= ENUM_LIMIT).
    { pose proof (few_groups B) as H. unfold groupsB in H. eapply Nat.le_trans; [exact H|exact Hl1]. }
    destruct (@block_table_tight B Hg Hne Hs1 Hfew) as [[Hno Et]|(_ & lo & c0 & Et & Hc & Hout & H1 & H2)].
    + right. split.
      * intros v Hv. inversion Hv as [|? ? Hv1 _]; subst. apply sol_of_in in Hv1. rewrite Hno in Hv1. destruct Hv1.
      * unfold f at 1. fold (groupsB B) in Et. rewrite Et. reflexivity.
    + unfold f at 1 3. fold (groupsB B) in Et. rewrite Et. cbn [bind].
      destruct IH as [(W & F & E)|[Hn E]]; rewrite E.
      * left. exists ((lo, c0) :: W). split; [|reflexivity].
        constructor; auto. split; [exact Hc|]. split; [exact Hout|]. split; [exact H1|exact H2].
      * right. split; [|reflexivity]. intros v Hv. inversion Hv; subst. eapply Hn; eauto.
Qed.

(** ** solutions with the least number of mines *)
Lemma sat_size v B w : NoDup (vars B) -> windowed B w -> sat v B -> fst w <= count v (vars B).
Proof.
  intros Nd (_ & Hw & _) Hv. destruct (Nat.lt_ge_cases (count v (vars B)) (fst w)) as [H|H]; auto.
  exfalso. specialize (Hw (count v (vars B)) (or_introl H)). unfold n_sol in Hw. pose proof (count_zero_inv Hw (sol_of_in Hv)) as Hz. cbv beta in Hz.
  apply Nat.eqb_neq in Hz. apply Hz. reflexivity.
Qed.
Lemma count_app {A} (f : A -> bool) l1 l2 : count f (l1 ++ l2) = count f l1 + count f l2.
Proof. unfold count. now rewrite filter_app, app_length. Qed.
Lemma sats_size v bl W : NoDup (concat (map vars bl)) -> Forall2 windowed bl W -> sats v bl -> nsum (map fst W) <= count v (concat (map vars bl)).
Proof.
  intros Nd F. rewrite nsum_sumn. induction F as [|B w bl W H F IH]; intros Hs; cbn [map concat sumn]; [lia|].
  inversion Hs as [|? ? Hv Hs']; subst. cbn [map concat] in Nd. rewrite count_app.
  pose proof (@sat_size v B w (NoDup_app_l Nd) H Hv). specialize (IH (NoDup_app_r Nd) Hs'). lia.
Qed.
Lemma count_ext_in {A} (f h : A -> bool) l : (forall a, In a l -> f a = h a) -> count f l = count h l.
Proof. apply count_ext. Qed.
Lemma sats_least bl W : NoDup (concat (map vars bl)) -> Forall2 windowed bl W -> exists v, sats v bl /\ count v (concat (map vars bl)) = nsum (map fst W).
Proof.
  intros Nd F. rewrite nsum_sumn. induction F as [|B w bl W H F IH]; cbn [map concat sumn].
  - exists (fun _ => false). split; [constructor|reflexivity].
  - cbn [map concat] in Nd. destruct (IH (NoDup_app_r Nd)) as (v & Hv & Hc).
    destruct H as (_ & _ & H & _). unfold n_sol in H.
    assert (exists s, In s (solutions B) /\ length s = fst w) as (s & Hs & Ls).
    { destruct (filter (fun s => length s =? fst w) (solutions B)) as [|s l] eqn:E; [exfalso; apply H; unfold count; now rewrite E|].
      exists s. assert (Hi : In s (filter (fun s => length s =? fst w) (solutions B))) by (rewrite E; now left).
      apply filter_In in Hi as [H1 H2]. split; auto. now apply Nat.eqb_eq. }
    pose proof (solution_sat Hs) as Hsat. assert (Hsub : In s (subs (vars B))) by (unfold solutions in Hs; now apply filter_In in Hs as [? _]).
    exists (fun p => if in_dec pos_eq_dec p (vars B) then mines_at s p else v p). split.
    + constructor.
      * eapply sat_ext_in; [|exact Hsat]. intros p Hp. destruct (in_dec pos_eq_dec p (vars B)); [reflexivity|contradiction].
      * unfold sats in Hv. rewrite Forall_forall in *. intros B' HB'. eapply sat_ext_in; [|exact (Hv B' HB')]. intros p Hp.
        destruct (in_dec pos_eq_dec p (vars B)) as [Hi|]; [|reflexivity]. exfalso. apply (NoDup_app_not_in Nd Hi). apply in_vars. eauto.
    + rewrite count_app. f_equal.
      * rewrite (@count_ext_in _ _ (mines_at s)). 2:{ intros p Hp. destruct (in_dec pos_eq_dec p (vars B)); [reflexivity|contradiction]. }
        rewrite <- Ls. unfold count. f_equal. symmetry. apply sub_eq_filter; auto. now apply NoDup_app_l in Nd.
      * rewrite <- Hc. apply count_ext_in. intros p Hp. destruct (in_dec pos_eq_dec p (vars B)) as [Hi|]; auto. exfalso. exact (NoDup_app_not_in Nd Hi Hp).
Qed.

Section Pos.
Variables (row column : nat) (g : board).
Hypothesis Hr : rect row column g.
Hypothesis H0 : 0 < row.
Hypothesis Hsmall : small_blocks g.
Let flags := flag_count row column g.
Let U := length (inner_cells row column g).

Record front_blocks (bl : list block) : Prop := {
  fb_refresh : refresh_matrixs g = Ok (bl, U, flags);
  fb_good : Forall good_block bl;
  fb_nd : NoDup (concat (map vars bl));
  fb_front : forall q, In q (concat (map vars bl)) <-> front_cell row column g q;
  fb_sats : forall v, sats v bl <-> explains_front row column g v;
  fb_nonneg : not_overflagged row column g -> Forall nonneg bl;
  fb_small : Forall (fun B => length (vars B) <= ENUM_LIMIT) bl }.
Lemma front_blocks_ok : exists bl, front_blocks bl.
Proof.
  destruct (refresh_blocks Hr H0) as (bl & k1 & k2 & E & Hg & _ & Nd & Hf & Hn).
  destruct (refresh_matrixs_partition Hr H0) as (bl3 & c1 & c2 & numss & E3 & FD & _ & Hnum & _ & _ & Ek1 & Ek2). rewrite E3 in E. injection E as -> -> ->.
  exists bl. constructor; auto.
  - rewrite E3, Ek1, Ek2. reflexivity.
  - intros Ho. apply Forall_forall. intros B HB. destruct (Forall2_in_r FD HB) as (ns & Hns & _ & _ & Ee). unfold nonneg. rewrite Ee. apply Forall_forall.
    intros e He. apply in_map_iff in He as (n & <- & Hin). cbn [snd]. assert (front_number row column g n) by (apply Hnum, in_concat; eauto). specialize (Ho n H). lia.
  - exact (Hsmall E3).
Qed.

(** the rest of the function, after the blocks have been solved *)
Definition tail_of (bl : list block) (spec : mine_spec) (ps : list piece) : R (list (pos * frac) * frac * (nat * nat * nat) * nat) :=
  let* mins := mapM (fun pc => list_min (t_mines (p_table pc))) ps in
  let* maxs := mapM (fun pc => list_max (t_mines (p_table pc))) ps in
  let* minenum := (match spec with
                   | Ratio mn => let* d := usub mn flags in Ok (Nat.min (Nat.max d (nsum mins)) (nsum maxs + U))
                   | Count m => if m <? flags then Err 17 else Ok (m - flags)
                   end) in
  let max_minenum := Nat.min (nsum maxs) minenum in
  if max_minenum <? nsum mins then Err 3
  else
    let* (p, pu) := posterior ps U minenum (nsum mins) max_minenum in
    Ok (p, pu, (nsum mins + flags, minenum + flags, max_minenum + flags + U), biggest bl).
Lemma cal_split bl spec : front_blocks bl -> cal_possibility g spec = let* ps := pieces_of bl in tail_of bl spec ps.
Proof.
  intros [E _ _ _ _ _ Hs]. unfold cal_possibility. rewrite E. cbn [bind].
  assert (E1 : filter (fun B => ENUM_LIMIT <? length (vars B)) bl = []).
  { clear - Hs. induction Hs as [|B bl H F IH]; auto. cbn [filter]. destruct (Nat.ltb_spec ENUM_LIMIT (length (vars B))); [lia|auto]. }
  assert (E2 : filter (fun B => negb (ENUM_LIMIT <? length (vars B))) bl = bl).
  { clear - Hs. induction Hs as [|B bl H F IH]; auto. cbn [filter]. destruct (Nat.ltb_spec ENUM_LIMIT (length (vars B))); [lia|]. cbn [negb]. now rewrite IH. }
  rewrite E1, E2. change (nsum (map (fun B => length (vars B)) [])) with 0. rewrite Nat.add_0_r. unfold pieces_of, tail_of, biggest.
  destruct (mapM _ bl) as [sq| | |]; cbn [bind]; reflexivity.
Qed.

Lemma tail_ok bl W m spec : front_blocks bl -> Forall2 windowed bl W ->
  (match spec with
   | Ratio k => let* d := usub k flags in Ok (Nat.min (Nat.max d (nsum (map fst W))) (nsum (map top W) + U))
   | Count m => if m <? flags then Err 17 else Ok (m - flags)
   end) = Ok m ->
  tail_of bl spec (map pieceB (combine bl W)) =
    if m <? nsum (map fst W) then Err 3
    else Ok (entries bl W U m, (ways (full U (fun k => k)) (rowsB bl W) (exactly m), worlds_total bl W U m * U),
             (nsum (map fst W) + flags, m + flags, Nat.min (nsum (map top W)) m + flags + U), biggest bl).
Proof.
  clear Hr H0 Hsmall. intros Fb HW E. unfold tail_of. destruct (mins_ok HW) as [M1 M2]. rewrite M1, M2. cbn [bind]. rewrite E. cbn [bind].
  assert (Hmm : nsum (map fst W) <= nsum (map top W)).
  { rewrite !nsum_sumn. clear - HW. induction HW as [|B w bl W (Hc & _) F IH]; cbn [map sumn]; auto. unfold top at 1. lia. }
  destruct (Nat.ltb_spec m (nsum (map fst W))), (Nat.ltb_spec (Nat.min (nsum (map top W)) m) (nsum (map fst W))); try lia; auto.
  pose proof (@posterior_ok bl W U m HW (fb_good Fb)) as P. cbv zeta in P. rewrite P by auto. reflexivity.
Qed.
Lemma entries_keys bl W m : Forall good_block bl -> Forall2 windowed bl W -> Permutation (map fst (entries bl W U m)) (concat (map vars bl)).
Proof.
  intros Hg HW. unfold entries. rewrite concat_map, map_map.
  rewrite (@map_ext _ _ _ (fun i => block_cells (nth i bl (Blk [] [])))).
  2:{ intros i. rewrite map_map. cbn [fst]. apply map_id. }
  pose proof (Forall2_len HW) as LW. rewrite !map_length, combine_length, <- LW, Nat.min_id.
  rewrite <- (map_map (fun i => nth i bl (Blk [] [])) block_cells).
  assert (Es : map (fun i => nth i bl (Blk [] [])) (seq 0 (length bl)) = bl).
  { apply nth_ext with (d := Blk [] []) (d' := Blk [] []); [now rewrite map_length, seq_length|]. intros j Hj. rewrite map_length, seq_length in Hj.
    rewrite (@nth_map_lt _ _ _ _ j (Blk [] []) 0) by (now rewrite seq_length). now rewrite seq_nth. }
  rewrite Es. clear - Hg. induction Hg as [|B bl H F IH]; auto. cbn [map concat]. apply Permutation_app; auto. now apply block_cells_perm.
Qed.

Lemma windowed_explained bl W : front_blocks bl -> Forall2 windowed bl W -> exists v, explains_front row column g v.
Proof. intros Fb HW. destruct (sats_least (fb_nd Fb) HW) as (v & Hv & _). exists v. now apply (fb_sats Fb). Qed.
Lemma front_mines_count bl v k : front_blocks bl -> (front_mines row column g v k <-> count v (concat (map vars bl)) = k).
Proof.
  intros Fb. split.
  - intros (l & Nd & Hl & <-). apply count_permutation. apply NoDup_Permutation; auto; [apply (fb_nd Fb)|]. intros q. rewrite (fb_front Fb), Hl. tauto.
  - intros <-. exists (concat (map vars bl)). split; [apply (fb_nd Fb)|]. split; auto. apply (fb_front Fb).
Qed.
End Pos.
