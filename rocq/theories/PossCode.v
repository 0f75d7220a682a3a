(** * PossCode: what [posterior] and [cal_possibility] compute. *)
From Verif Require Import Base Spec BaseFacts LayMine Matrix Solve Utils UtilsProofs SolverSpec LinFacts SolveProofs ChunkProofs MatrixProofs CombineProofs TableProofs EnumProofs EnumBlock EnumSolve PosProofs MatrixMeaning
  Possibility PossSpec PossProofs PossSums.
Open Scope nat_scope.

Definition groupsB (B : block) : list (list nat) := map (group (map fst (eqs B)) (length (vars B))) (reps (map fst (eqs B)) (length (vars B))).
Definition tabB (B : block) (w : nat * nat) : list trow := map (line B) (seq (fst w) (snd w)).
Definition pieceB (bw : block * (nat * nat)) : piece := Piece (fst bw) (groupsB (fst bw)) (tabB (fst bw) (snd bw)).
(** a block with the numbers of mines it can have *)
Definition windowed (B : block) (w : nat * nat) : Prop :=
  0 < snd w /\ window B w /\ n_sol B (fst w) <> 0 /\ n_sol B (fst w + snd w - 1) <> 0.

Lemma few_groups B : length (groupsB B) <= length (vars B).
Proof.
  unfold groupsB. rewrite map_length.
  pose proof (NoDup_incl_length (NoDup_reps (map fst (eqs B)) (length (vars B))) (l' := seq 0 (length (vars B)))) as L. rewrite seq_length in L. apply L.
  intros k Hk. apply In_reps in Hk. apply in_seq. lia.
Qed.
Lemma pieces_ok bl v0 : Forall good_block bl -> sats v0 bl -> Forall (fun B => length (vars B) <= ENUM_LIMIT) bl ->
  exists W, Forall2 windowed bl W /\
    (let* sq := mapM (fun B => let* (A, x, groups) := combine_cells (map fst (eqs B)) (vars B) in Ok (B, A, x, groups)) bl in
     mapM (fun '(B, A, x, groups) =>
                let* t := cal_table_minenum_recursion A x (map snd (eqs B)) groups in Ok (Piece B groups t)) sq) = Ok (map pieceB (combine bl W)).
Proof.
  intros Hg Hs Hl.
  set (f := fun B => (B, squeezed (map fst (eqs B)) (length (vars B)), sel (0, 0) (vars B) (reps (map fst (eqs B)) (length (vars B))), groupsB B)).
  rewrite (@mapM_ok _ _ _ f).
  2:{ intros B HB. rewrite Forall_forall in Hg. destruct (Hg B HB) as [Hgd _]. now rewrite (combine_B Hgd). }
  cbn [bind]. induction Hg as [|B bl [Hg Hne] Hgs IH].
  - exists []. split; [constructor|reflexivity].
  - inversion Hs as [|? ? Hs1 Hs2]; subst. inversion Hl as [|? ? Hl1 Hl2]; subst.
    destruct (IH Hs2 Hl2) as (W & F & E). cbn [map mapM].
    destruct (@block_table_tight B Hg Hne (sat_pos (conj Hg Hne) Hs1)) as [[Hno _]|(_ & lo & c0 & Et & Hc & Hout & H1 & H2)].
    + pose proof (few_groups B). unfold groupsB in H. lia.
    + pose proof (sol_of_in Hs1) as Hi. rewrite Hno in Hi. destruct Hi.
    + exists ((lo, c0) :: W). split.
      * constructor; auto. split; [exact Hc|]. split; [exact Hout|]. split; [exact H1|exact H2].
      * unfold f at 1. fold (groupsB B) in Et. rewrite Et. cbn [bind]. rewrite E. reflexivity.
Qed.

Lemma list_min_seq lo c : 0 < c -> list_min (seq lo c) = Ok lo.
Proof.
  destruct c as [|c]; [lia|]. intros _. cbn [seq list_min]. f_equal.
  assert (G : forall c a b, a <= b -> fold_left Nat.min (seq b c) a = a).
  { intros c'. induction c' as [|c' IH]; intros a b H; cbn [seq fold_left]; auto. rewrite Nat.min_l by lia. apply IH. lia. }
  apply G. lia.
Qed.
Lemma list_max_seq lo c : 0 < c -> list_max (seq lo c) = Ok (lo + c - 1).
Proof.
  destruct c as [|c]; [lia|]. intros _. cbn [seq list_max]. f_equal.
  assert (G : forall c a, fold_left Nat.max (seq (S a) c) a = a + c).
  { intros c'. induction c' as [|c' IH]; intros a; cbn [seq fold_left]; [lia|]. rewrite Nat.max_r by lia. rewrite IH. lia. }
  rewrite G. lia.
Qed.
Lemma t_mines_tabB B w : t_mines (tabB B w) = seq (fst w) (snd w).
Proof. unfold t_mines, tabB. rewrite map_map. cbn. apply map_id. Qed.
Lemma t_count_tabB B w : t_count (tabB B w) = map (n_sol B) (seq (fst w) (snd w)).
Proof. unfold t_count, tabB. rewrite map_map. reflexivity. Qed.
Definition top (w : nat * nat) : nat := fst w + snd w - 1.
Lemma mins_ok bl W : Forall2 windowed bl W -> mapM (fun pc => list_min (t_mines (p_table pc))) (map pieceB (combine bl W)) = Ok (map fst W) /\
  mapM (fun pc => list_max (t_mines (p_table pc))) (map pieceB (combine bl W)) = Ok (map top W).
Proof.
  induction 1 as [|B w bl W (Hc & _) F [IH1 IH2]]; [split; reflexivity|]. cbn [combine map mapM pieceB p_table fst snd]. rewrite t_mines_tabB.
  rewrite list_min_seq, list_max_seq by auto. cbn [bind]. rewrite IH1, IH2. split; reflexivity.
Qed.

Lemma foldM_sumn {A} (F : nat -> A -> R nat) (h : A -> nat) l : (forall s a, In a l -> F s a = Ok (s + h a)) -> forall s, foldM F l s = Ok (s + sumn h l).
Proof.
  induction l as [|a l IH]; intros H s; cbn [foldM sumn]; [f_equal; lia|]. rewrite H by now left. cbn [bind]. rewrite IH by (intros; apply H; now right). f_equal. lia.
Qed.
Lemma sumn_combine {X} (h : nat * X -> nat) (o : list nat) (l : list X) d : length o = length l ->
  sumn h (combine o l) = sumn (fun a => h (nth a o 0, nth a l d)) (seq 0 (length o)).
Proof. intros L. rewrite (@sumn_nth _ h _ (0, d)), combine_length, <- L, Nat.min_id. apply sumn_ext. intros a _. now rewrite combine_nth. Qed.

(** rows of the tables *)
Lemma rows_fst bl W : length bl = length W -> map (map fst) (rowsB bl W) = map t_mines (map p_table (map pieceB (combine bl W))).
Proof.
  intros L. unfold rowsB. rewrite !map_map. apply map_ext_in. intros [B w] _. cbn [pieceB p_table fst snd]. rewrite t_mines_tabB. unfold rowf. rewrite map_map. apply map_id.
Qed.
Lemma rows_snd bl W : map (map snd) (rowsB bl W) = cols (map p_table (map pieceB (combine bl W))).
Proof.
  unfold rowsB, cols. rewrite !map_map. apply map_ext_in. intros [B w] _. cbn [pieceB p_table fst snd]. rewrite t_count_tabB. unfold rowf. rewrite map_map. reflexivity.
Qed.
Lemma rowsB_app l1 w1 l2 w2 : length l1 = length w1 -> rowsB (l1 ++ l2) (w1 ++ w2) = rowsB l1 w1 ++ rowsB l2 w2.
Proof.
  unfold rowsB. revert w1. induction l1 as [|B l1 IH]; intros [|w w1] L; try discriminate L; auto. cbn [app combine map]. f_equal. apply IH. cbn in L. lia.
Qed.

Lemma map_upd_nth {A B} (f : A -> B) l i x : map f (upd_nth l i x) = upd_nth (map f l) i (f x).
Proof. revert i. induction l as [|a l IH]; intros [|i]; cbn; auto. now rewrite IH. Qed.
Lemma upd_nth_same {A} (l : list A) i d : upd_nth l i (nth i l d) = l.
Proof. revert i. induction l as [|a l IH]; intros [|i]; cbn; auto. now rewrite IH. Qed.
Lemma upd_nth_out {A} (l : list A) i x : length l <= i -> upd_nth l i x = l.
Proof. revert i. induction l as [|a l IH]; intros [|i] H; cbn in *; auto; [lia|]. rewrite IH by lia. reflexivity. Qed.
Lemma Forall2_upd {A B} (P : A -> B -> Prop) l l' i x d : Forall2 P l l' -> P x (nth i l' d) -> Forall2 P (upd_nth l i x) l'.
Proof. intros F. revert i. induction F as [|a b l l' H F IH]; intros [|i] Hx; cbn in *; constructor; auto. Qed.
Lemma Forall2_len {A B} (P : A -> B -> Prop) l l' : Forall2 P l l' -> length l = length l'.
Proof. induction 1; cbn; auto. Qed.

Lemma full_ext U f phi psi : (forall t, phi t = psi t) -> full U f phi = full U f psi.
Proof. intros H. apply sumn_ext. intros k _. now rewrite H. Qed.
Definition lastrow (U : nat) (f : nat -> nat) (unk : list nat) : list (nat * nat) := map (fun k => (k, binom U k * f k)) unk.
Definition bounds (W : list (nat * nat)) : list (nat * nat) := map (fun w => (fst w, top w)) W.
Definition within (rows : list (list (nat * nat))) (W : list (nat * nat)) : Prop :=
  Forall2 (fun r b => forall kf, In kf r -> fst b <= fst kf <= snd b) rows (bounds W).

Lemma rowf_within f B w : windowed B w -> forall kf, In kf (rowf f w) -> fst w <= fst kf <= top w.
Proof. intros (Hc & _) kf H. unfold rowf in H. apply in_map_iff in H as (k & <- & Hk). apply in_seq in Hk. cbn [fst]. unfold top. lia. Qed.

Lemma combine_seq {X} (l : list X) d : combine (seq 0 (length l)) l = map (fun i => (i, nth i l d)) (seq 0 (length l)).
Proof.
  induction l as [|x l IH]; auto. cbn [length]. rewrite <- cons_seq, <- seq_shift. cbn [combine map nth]. f_equal. rewrite map_map.
  assert (G : forall (a : list nat) (b : list X) (h : nat -> nat), combine (map h a) b = map (fun '(i, y) => (h i, y)) (combine a b)).
  { intros a. induction a as [|z a IHa]; intros [|y b] h; auto. cbn [map combine]. now rewrite IHa. }
  rewrite G, IH, map_map. reflexivity.
Qed.
Lemma concat_map_map {X Y} (f : X -> Y) ll : concat (map (map f) ll) = map f (concat ll).
Proof. symmetry. apply concat_map. Qed.

Section Post.
Variables (bl : list block) (W : list (nat * nat)) (U m : nat).
Hypothesis HW : Forall2 windowed bl W.
Hypothesis Hg : Forall good_block bl.
Let mn := nsum (map fst W).
Let mx0 := nsum (map top W).
Let mx := Nat.min mx0 m.
Hypothesis Hle : mn <= mx.
Let unk := rng (m - mx) (Nat.min (m - mn) U + 1).
Let rows := rowsB bl W.
Let ps := map pieceB (combine bl W).
Let tabs := map p_table ps.
Let n := length tabs.

Lemma length_rows : length rows = n. Proof. unfold rows, rowsB, n, tabs, ps. now rewrite !map_length. Qed.
Lemma length_W : length bl = length W. Proof. exact (Forall2_len HW). Qed.
Lemma n_bl : n = length bl. Proof. unfold n, tabs, ps. rewrite !map_length, combine_length, length_W. lia. Qed.
Lemma rows_within : within rows W.
Proof.
  unfold within, rows, rowsB, bounds. clear - HW. induction HW as [|B w bl W H F IH]; cbn [combine map]; constructor; auto.
  intros kf. cbn [fst snd]. now apply (@rowf_within (n_sol B) B w).
Qed.
(** the sum over the selected choices *)
Lemma sel_ways rows' f : within rows' W ->
  sumn (psel (map (map snd) (rows' ++ [lastrow U f unk])))
       (filter (fun s => tsel (map (map fst) (rows' ++ [lastrow U f unk])) s =? m) (cart (map indices (map (map fst) (rows' ++ [lastrow U f unk])))))
  = ways (full U f) rows' (exactly m).
Proof.
  intros Hw. rewrite sumn_filter. pose proof (cart_ways (rows' ++ [lastrow U f unk]) (exactly m)) as E. unfold exactly at 1 in E. rewrite E. clear E.
  rewrite ways_app. apply (@ways_inner _ _ rows' (bounds W)).
  - exact Hw.
  - intros t Ht. unfold bounds in Ht. rewrite !map_map in Ht. cbn [fst snd] in Ht. change (map (fun w : nat * nat => top w) W) with (map top W) in Ht. fold mx0 in Ht. change (map (fun w : nat * nat => fst w) W) with (map fst W) in Ht. fold mn in Ht.
    cbn [ways]. unfold lastrow. rewrite sumn_map. cbn [fst snd]. unfold full.
    rewrite (@sumn_ext _ (fun x => binom U x * f x * exactly m (t + (x + 0))) (fun x => binom U x * f x * exactly m (t + x))) by (intros; now rewrite Nat.add_0_r).
    apply sumn_support; [apply seq_NoDup|apply seq_NoDup|]. intros k Hk. unfold exactly in Hk. destruct (Nat.eqb_spec (t + k) m) as [Et|]; cbn [b1] in Hk; [|lia].
    unfold unk, rng. rewrite !in_seq. split; [lia|]. intros Hu. unfold mx in *. lia.
  - intros phi psi H. cbn [ways]. apply sumn_ext. intros kf _. now rewrite H.
  - intros phi psi H. now apply full_ext.
Qed.

Let unkC := map (binom U) unk.
Let kss := map t_mines tabs ++ [unk].
Let sl := filter (fun s => tsel kss s =? m) (cart (map indices kss)).
Lemma kss_eq f : map (map fst) (rows ++ [lastrow U f unk]) = kss.
Proof.
  rewrite map_app. unfold kss. f_equal; [apply rows_fst, length_W|]. cbn [map]. f_equal. unfold lastrow. rewrite map_map. apply map_id.
Qed.
Lemma sl_valid : Forall (valid tabs unk m) sl.
Proof. apply Forall_forall. intros s Hs. apply filter_In in Hs as [H1 H2]. apply Nat.eqb_eq in H2. split; auto. Qed.
Lemma length_unkC : length unkC = length unk. Proof. unfold unkC. apply map_length. Qed.

Lemma K_last s : valid tabs unk m s -> forall f, K tabs unkC s n * (nth (nth n s 0) unkC 0 * f (nth (nth n s 0) unk 0)) =
  psel (map (map snd) (rows ++ [lastrow U f unk])) s.
Proof.
  intros Hv f. destruct (valid_facts Hv) as (L & Hs & Hn & _). fold n in L, Hs, Hn. rewrite map_app. cbn [map]. rewrite psel_last by (rewrite map_length, length_rows; exact L).
  unfold K. fold n. destruct (Nat.ltb_spec n n); [lia|]. rewrite map_length, length_rows. unfold rows at 1. rewrite rows_snd. fold ps tabs. f_equal.
  unfold lastrow. rewrite map_map. cbn [snd]. unfold unkC. rewrite !(@nth_map_lt _ _ _ unk _ 0 0) by auto. reflexivity.
Qed.
Lemma T_ok f other : holds_f (map (@length nat) kss) (fun i a => sumn (fun s => if (i <=? n) && (a =? nth i s 0) then K tabs unkC s i else 0) sl) other ->
  sumn (fun a => nth a (nth n other []) 0 * (nth a unkC 0 * f (nth a unk 0))) (seq 0 (length unk)) = ways (full U f) rows (exactly m).
Proof.
  intros H. rewrite <- (@len_unk tabs unk). fold n. rewrite (@line_sum tabs unk unkC m sl other n _ sl_valid H (le_n _)).
  rewrite <- (@sel_ways rows f rows_within). rewrite (kss_eq f). fold sl. apply sumn_ext. intros s Hs.
  pose proof sl_valid as Hv. rewrite Forall_forall in Hv. now rewrite <- (K_last (Hv s Hs)).
Qed.
(** the numerator for the cell [q] of block number [i] *)
Definition numer (i : nat) (q : pos) : nat :=
  ways (full U (fun _ => 1)) (upd_nth rows i (rowf (fun k => n_sol_at (nth i bl (Blk [] [])) k q) (nth i W (0, 0)))) (exactly m).
Lemma windowed_nth i : i < n -> windowed (nth i bl (Blk [] [])) (nth i W (0, 0)).
Proof.
  rewrite n_bl. clear - HW. revert i. induction HW as [|B w bl W H F IH]; intros i Hi; cbn in Hi; [lia|]. destruct i; cbn [nth]; auto. apply IH; auto; lia.
Qed.
Lemma tab_nth i : i < n -> nth i tabs [] = tabB (nth i bl (Blk [] [])) (nth i W (0, 0)).
Proof.
  intros Hi. pose proof n_bl as E1. pose proof length_W as E2. assert (Hc : i < length (combine bl W)) by (rewrite combine_length; lia).
  unfold tabs, ps. rewrite map_map. rewrite (@nth_map_lt _ _ _ _ i [] (Blk [] [], (0, 0))) by exact Hc.
  rewrite combine_nth by apply length_W. reflexivity.
Qed.
Lemma num_ok i q other : i < n -> holds_f (map (@length nat) kss) (fun i a => sumn (fun s => if (i <=? n) && (a =? nth i s 0) then K tabs unkC s i else 0) sl) other ->
  sumn (fun a => nth a (nth i other []) 0 * n_sol_at (nth i bl (Blk [] [])) (fst (nth i W (0, 0)) + a) q) (seq 0 (length (nth i tabs []))) = numer i q.
Proof.
  intros Hi H. set (B := nth i bl (Blk [] [])). set (w := nth i W (0, 0)).
  rewrite <- (@len_tabs tabs unk i Hi). rewrite (@line_sum tabs unk unkC m sl other i _ sl_valid H ltac:(fold n; lia)).
  set (r := rowf (fun k => n_sol_at B k q) w).
  assert (Hr : within (upd_nth rows i r) W).
  { unfold within. apply Forall2_upd with (d := (0, 0)); [exact rows_within|]. unfold bounds. rewrite (@nth_map_lt _ _ _ W i _ (0, 0)) by (rewrite <- length_W, <- n_bl; auto).
    fold w. cbn [fst snd]. apply (@rowf_within _ B w). apply windowed_nth. exact Hi. }
  unfold numer. fold B w r. rewrite <- (@sel_ways _ (fun _ => 1) Hr).
  assert (Ef : map (map fst) (upd_nth rows i r ++ [lastrow U (fun _ => 1) unk]) = kss).
  { rewrite <- (kss_eq (fun _ => 1)). rewrite !map_app. f_equal. rewrite map_upd_nth.
    replace (map fst r) with (nth i (map (map fst) rows) []); [apply upd_nth_same|].
    unfold rows. rewrite rows_fst by apply length_W. fold ps tabs. rewrite (@nth_map_lt _ _ _ tabs i [] []) by exact Hi.
    rewrite (tab_nth Hi). fold B w. rewrite t_mines_tabB. unfold r, rowf. rewrite map_map. symmetry. apply map_id. }
  rewrite Ef. fold sl. apply sumn_ext. intros s Hs. pose proof sl_valid as Hv. rewrite Forall_forall in Hv. destruct (valid_facts (Hv s Hs)) as (L & Hb & Hn & _).
  fold n in L, Hb, Hn. rewrite map_app. cbn [map]. rewrite psel_last by (rewrite map_length, length_upd_nth, length_rows; exact L).
  unfold K. fold n. destruct (Nat.ltb_spec i n); [|lia]. rewrite map_length, length_upd_nth, length_rows. rewrite map_upd_nth.
  set (gc := map snd r). assert (Lg : length gc = length (nth i tabs [])).
  { unfold gc, r, rowf. rewrite (tab_nth Hi). unfold tabB. fold B w. now rewrite !map_length. }
  rewrite (@psel_upd (map (map snd) rows) i s gc) by (try rewrite Lg; rewrite ?map_length, ?length_rows; auto; lia). rewrite Lg.
  unfold rows at 1. rewrite rows_snd. fold ps tabs.
  replace (nth (nth n s 0) (map snd (lastrow U (fun _ => 1) unk)) 0) with (nth (nth n s 0) unkC 0).
  2:{ unfold lastrow, unkC. rewrite map_map. cbn [snd]. rewrite !(@nth_map_lt _ _ _ unk _ 0 0) by auto. lia. }
  replace (nth (nth i s 0) gc 0) with (n_sol_at B (fst w + nth i s 0) q); [lia|].
  specialize (Hb i Hi). rewrite (tab_nth Hi) in Hb. fold B w in Hb. unfold tabB in Hb. rewrite map_length, seq_length in Hb.
  unfold gc, r, rowf. rewrite map_map. cbn [snd]. rewrite (@nth_map_lt _ _ _ _ _ 0 0) by (rewrite seq_length; auto). now rewrite seq_nth by auto.
Qed.

Definition block_cells (B : block) : list pos := concat (map (sel (0, 0) (vars B)) (groupsB B)).
Definition worlds_total : nat := ways (full U (fun _ => 1)) rows (exactly m).
Definition entries : list (pos * frac) :=
  concat (map (fun i => map (fun q => (q, (numer i q, worlds_total))) (block_cells (nth i bl (Blk [] [])))) (seq 0 n)).
Theorem posterior_ok : posterior ps U m mn mx = Ok (entries, (ways (full U (fun k => k)) rows (exactly m), worlds_total * U)).
Proof.
  unfold posterior. fold tabs. unfold usub.
  destruct (Nat.leb_spec mx m) as [_|Hx]; [|unfold mx in Hx; lia]. destruct (Nat.leb_spec mn m) as [_|Hx]; [|unfold mx in Hle; lia]. cbn [bind]. fold unk.
  rewrite (@mapM_ok _ _ _ (binom U)).
  2:{ intros k Hk. apply C_exact_ok. unfold unk, rng in Hk. apply in_seq in Hk. lia. }
  cbn [bind]. fold unkC kss.
  rewrite (@foldM_filter _ (choice_total kss) (tsel kss)).
  2:{ intros s Hs. change (map (fun l => seq 0 (length l)) kss) with (map indices kss) in Hs. apply in_cart in Hs as [L H]. unfold choice_total. now rewrite choice_total_ok. }
  cbn [bind app]. change (map (fun l => seq 0 (length l)) kss) with (map indices kss). fold sl.
  destruct (@tallies_ok tabs unk unkC m (seq_NoDup _ _) length_unkC sl sl_valid) as (other & E & Hh). fold n kss in E, Hh. rewrite E. cbn [bind]. fold n.
  assert (Lo : length other = S n). { destruct Hh as [L _]. rewrite L. unfold kss. rewrite map_length, app_length, map_length. cbn [length]. fold n. lia. }
  rewrite (vget_ok []) by lia. cbn [bind].
  assert (Lon : length (nth n other []) = length unk).
  { destruct Hh as [_ Hh]. destruct (Hh n) as [L _]. - rewrite map_length. unfold kss. rewrite app_length, map_length. cbn [length]. fold n. lia. - rewrite L. exact (@len_unk tabs unk). }
  rewrite (@foldM_sumn _ _ (fun '(o, c) => o * c)). 2:{ intros s0 [o c] _. reflexivity. }
  cbn [bind]. rewrite Nat.add_0_l. rewrite (@sumn_combine _ _ _ _ 0) by (rewrite Lon, length_unkC; reflexivity). rewrite Lon.
  pose proof (T_ok (fun _ => 1) Hh) as HT. fold worlds_total in HT.
  rewrite (@sumn_ext _ _ (fun a => nth a (nth n other []) 0 * (nth a unkC 0 * 1))) by (intros; lia). rewrite HT.
  assert (Lp : length ps = n) by (unfold n, tabs; now rewrite map_length).
  rewrite <- Lp at 1. rewrite (@combine_seq _ ps (pieceB (Blk [] [], (0, 0)))). rewrite Lp.
  rewrite (@mapM_ok _ _ _ (fun '(i, pc) => map (fun j => map (fun id => (nth id (vars (p_block pc)) (0, 0), (numer i (nth id (vars (p_block pc)) (0, 0)), worlds_total)))
                     (nth j (p_groups pc) [])) (seq 0 (length (p_groups pc))))).
  2:{ intros [i pc] Hi. apply in_map_iff in Hi as (i' & Ei & Hi). injection Ei as -> <-. apply in_seq in Hi. assert (Hi' : i < n) by lia.
      assert (Ep : nth i ps (pieceB (Blk [] [], (0, 0))) = pieceB (nth i bl (Blk [] []), nth i W (0, 0))).
      { unfold ps. rewrite (@nth_map_lt _ _ _ _ i _ (Blk [] [], (0, 0))) by (unfold n, tabs, ps in Hi'; rewrite !map_length in Hi'; exact Hi'). rewrite combine_nth by apply length_W. reflexivity. }
      rewrite Ep. set (B := nth i bl (Blk [] [])). set (w := nth i W (0, 0)). cbn [pieceB p_block p_groups p_table fst snd].
      rewrite (vget_ok []) by lia. cbn [bind]. apply mapM_ok. intros j Hj. apply in_seq in Hj.
      rewrite (vget_ok []) by lia. cbn [bind].
      assert (Lt : length (nth i other []) = length (t_cells (tabB B w)) /\ length (t_cells (tabB B w)) = length (nth i tabs [])).
      { destruct Hh as [_ Hh]. destruct (Hh i) as [L _]. - rewrite map_length. unfold kss. rewrite app_length, map_length. cbn [length]. fold n. lia.
        - rewrite L. change (map (@length nat) kss) with (map (@length nat) (map t_mines tabs ++ [unk])). rewrite (@len_tabs tabs unk i Hi'). rewrite (tab_nth Hi'). fold B w. unfold t_cells. rewrite map_length. auto. }
      assert (HgB : good (vars B) (eqs B)). { rewrite Forall_forall in Hg. apply Hg. apply nth_In. rewrite <- n_bl. exact Hi'. }
      rewrite (@foldM_sumn _ _ (fun '(o, cells) => o * nth j cells 0)).
      2:{ intros s0 [o cells] Hin. apply in_combine_r in Hin. unfold t_cells, tabB in Hin. rewrite map_map in Hin. apply in_map_iff in Hin as (k & Ek & _).
          unfold line in Ek. cbn [snd] in Ek. rewrite (vget_ok 0); [reflexivity|]. rewrite <- Ek, map_length. fold (groupsB B). lia. }
      cbn [bind]. rewrite Nat.add_0_l. rewrite (@sumn_combine _ _ _ _ []) by apply Lt.
      apply mapM_ok. intros id Hid.
      assert (Hid' : id < length (vars B)).
      { assert (Hin : In (nth j (groupsB B) []) (groupsB B)) by (apply nth_In; lia). unfold groupsB in Hin at 2. apply in_map_iff in Hin as (k & Ek & Hk).
        eapply group_lt; eauto. rewrite Ek. exact Hid. }
      rewrite (vget_ok (0, 0)) by exact Hid'. cbn [bind]. do 3 f_equal.
      rewrite <- (@num_ok i (nth id (vars B) (0, 0)) other Hi' Hh). fold B w. destruct Lt as [L1 L2]. rewrite L1, L2. apply sumn_ext. intros a Ha. apply in_seq in Ha.
      f_equal. rewrite <- L2 in Ha. unfold t_cells, tabB in *. rewrite !map_length, seq_length in Ha. rewrite map_map.
      rewrite (@nth_map_lt _ _ _ _ a [] 0) by (rewrite seq_length; lia). rewrite seq_nth by lia. unfold line. cbn [snd]. fold (groupsB B).
      rewrite (@nth_map_lt _ _ _ _ j 0 []) by lia. symmetry. apply (group_cells HgB); [apply nth_In; fold (groupsB B); lia|exact Hid]. }
  cbn [bind]. rewrite (@foldM_sumn _ _ (fun '(o, (c, k)) => o * c * k)). 2:{ intros s0 [o [c k]] _. reflexivity. }
  cbn [bind]. rewrite Nat.add_0_l. rewrite (@sumn_combine _ _ _ _ (0, 0)) by (rewrite combine_length, length_unkC; lia). rewrite Lon.
  pose proof (T_ok (fun k => k) Hh) as Hu. 
  rewrite (@sumn_ext _ _ (fun a => nth a (nth n other []) 0 * (nth a unkC 0 * nth a unk 0))).
  2:{ intros a _. rewrite combine_nth by apply length_unkC. lia. }
  rewrite Hu. unfold entries. match goal with |- Ok (?a, ?b) = Ok (?c, ?b) => cut (a = c); [intros ->; reflexivity|] end. f_equal. rewrite !map_map. apply map_ext_in. intros i Hi. apply in_seq in Hi. assert (Hi' : i < n) by lia.
  assert (Ep : nth i ps (pieceB (Blk [] [], (0, 0))) = pieceB (nth i bl (Blk [] []), nth i W (0, 0))).
  { unfold ps. rewrite (@nth_map_lt _ _ _ _ i _ (Blk [] [], (0, 0))) by (unfold n, tabs, ps in Hi'; rewrite !map_length in Hi'; exact Hi'). rewrite combine_nth by apply length_W. reflexivity. }
  rewrite Ep. cbn [pieceB p_block p_groups p_table fst snd]. set (B := nth i bl (Blk [] [])). unfold block_cells. rewrite <- concat_map_map, map_map. f_equal.
  rewrite <- (map_map (fun j => nth j (groupsB B) []) (fun l => map (fun id => (nth id (vars B) (0, 0), (numer i (nth id (vars B) (0, 0)), worlds_total))) l)).
  assert (Es : map (fun j => nth j (groupsB B) []) (seq 0 (length (groupsB B))) = groupsB B).
  { apply nth_ext with (d := []) (d' := []); [now rewrite map_length, seq_length|]. intros j Hj. rewrite map_length, seq_length in Hj.
    rewrite (@nth_map_lt _ _ _ _ j [] 0) by (now rewrite seq_length). now rewrite seq_nth. }
  rewrite Es. apply map_ext. intros l. unfold sel. now rewrite map_map.
Qed.
End Post.
