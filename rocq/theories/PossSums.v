(** * PossSums: the number of worlds as a sum over mine numbers of the blocks. *)
From Verif Require Import Base Spec BaseFacts Matrix Solve SolverSpec LinFacts SolveProofs MatrixProofs TableProofs EnumProofs EnumBlock EnumSolve PosProofs MatrixMeaning
  PossSpec PossProofs.
Open Scope nat_scope.

Definition b1 (b : bool) : nat := if b then 1 else 0.
Lemma count_b1 {A} (f : A -> bool) l : count f l = sumn (fun a => b1 (f a)) l.
Proof. apply count_sumn. Qed.
Lemma sumn_filter {A} (f : A -> nat) (p : A -> bool) l : sumn f (filter p l) = sumn (fun a => f a * b1 (p a)) l.
Proof. induction l as [|a l IH]; auto. cbn [filter sumn]. rewrite <- IH. destruct (p a); cbn [sumn b1]; lia. Qed.
Lemma sumn_support {A} (f : A -> nat) l1 l2 : NoDup l1 -> NoDup l2 -> (forall x, f x <> 0 -> (In x l1 <-> In x l2)) -> sumn f l1 = sumn f l2.
Proof.
  intros N1 N2 H.
  assert (E : forall l, sumn f l = sumn f (filter (fun x => negb (f x =? 0)) l)).
  { intros l. rewrite sumn_filter. apply sumn_ext. intros x _. destruct (Nat.eqb_spec (f x) 0); cbn [negb b1]; lia. }
  rewrite (E l1), (E l2). apply sumn_perm. apply NoDup_Permutation; try (now apply NoDup_filter). intros x. rewrite !filter_In.
  destruct (Nat.eqb_spec (f x) 0) as [|Hn]; cbn [negb]; [split; intros [_ ?]; discriminate|]. specialize (H x Hn). tauto.
Qed.

(** ** independent parts *)
Definition local (v : list pos) (g : list pos -> nat) : Prop := forall s s', (forall p, In p v -> mem_pos p s = mem_pos p s') -> g s = g s'.
Definition counts (v : list pos) (g : list pos -> nat) (F : (nat -> nat) -> nat) : Prop :=
  forall phi, sumn (fun s => g s * phi (length s)) (subs v) = F phi.
Fixpoint gprod (gs : list (list pos -> nat)) (s : list pos) : nat := match gs with [] => 1 | g :: gs => g s * gprod gs s end.

Lemma mem_app_out_l p s1 s2 v1 : In s1 (subs v1) -> ~ In p v1 -> mem_pos p (s1 ++ s2) = mem_pos p s2.
Proof.
  intros Hs Hp. apply eq_true_iff_eq. rewrite !mem_pos_true, in_app_iff. split; auto. intros [H|H]; auto. exfalso. apply Hp. exact (subs_incl Hs H).
Qed.
Lemma mem_app_out_r p s1 s2 v2 : In s2 (subs v2) -> ~ In p v2 -> mem_pos p (s1 ++ s2) = mem_pos p s1.
Proof.
  intros Hs Hp. apply eq_true_iff_eq. rewrite !mem_pos_true, in_app_iff. split; auto. intros [H|H]; auto. exfalso. apply Hp. exact (subs_incl Hs H).
Qed.
Lemma gprod_local vs gs inner : Forall2 local vs gs -> forall s1 s2 v1, In s1 (subs v1) -> In s2 (subs (concat vs ++ inner)) ->
  (forall p, In p v1 -> ~ In p (concat vs ++ inner)) -> gprod gs (s1 ++ s2) = gprod gs s2.
Proof.
  intros F s1 s2 v1 H1 _ Hd.
  assert (G : forall vs' , incl vs' vs -> forall gs', Forall2 local vs' gs' -> gprod gs' (s1 ++ s2) = gprod gs' s2).
  { intros vs' Hi gs' F'. induction F' as [|v g vs'' gs'' Hl F' IH]; auto. cbn [gprod]. f_equal.
    - apply Hl. intros p Hp. eapply mem_app_out_l; [exact H1|]. intros Hp1. apply (Hd p Hp1). apply in_app_iff. left. apply in_concat. exists v. split; auto. apply Hi. now left.
    - apply IH. intros x Hx. apply Hi. now right. }
  apply (G vs); auto. apply incl_refl.
Qed.
Theorem subs_ways vs gs rows inner gi I : NoDup (concat vs ++ inner) -> Forall2 local vs gs -> local inner gi -> counts inner gi I ->
  Forall2 (fun '(v, g) r => counts v g (fun phi => sumn (fun kf => snd kf * phi (fst kf)) r)) (combine vs gs) rows ->
  forall phi, sumn (fun s => gprod gs s * gi s * phi (length s)) (subs (concat vs ++ inner)) = ways I rows phi.
Proof.
  intros Nd Fl Hli Hci. revert rows. induction Fl as [|v g vs gs Hl Fl IH]; intros rows Fc phi.
  - inversion Fc; subst. cbn [concat app ways gprod]. rewrite <- Hci. apply sumn_ext. intros s _. lia.
  - cbn [combine] in Fc. inversion Fc as [|? r ? rows' Hc Fc']; subst. cbn [concat] in *. rewrite <- app_assoc in *.
    rewrite subs_app. cbn [ways].
    assert (Nd2 : NoDup (concat vs ++ inner)) by (apply NoDup_app_r in Nd; exact Nd).
    assert (Hd : forall p, In p v -> ~ In p (concat vs ++ inner)) by (intros p Hp; eapply NoDup_app_not_in; eauto).
    rewrite (@sumn_ext _ _ (fun s1 => g s1 * (fun k => ways I rows' (fun t => phi (k + t))) (length s1))).
    + apply (Hc (fun k => ways I rows' (fun t => phi (k + t)))).
    + intros s1 H1. cbn beta. rewrite <- (IH Nd2 rows' Fc' (fun t => phi (length s1 + t))). rewrite <- sumn_scale. apply sumn_ext. intros s2 H2.
      cbn [gprod]. rewrite app_length.
      assert (E1 : g (s1 ++ s2) = g s1) by (apply Hl; intros p Hp; eapply mem_app_out_r; [exact H2|auto]).
      assert (E2 : gprod gs (s1 ++ s2) = gprod gs s2) by (eapply gprod_local; eauto).
      assert (E3 : gi (s1 ++ s2) = gi s2).
      { apply Hli. intros p Hp. eapply mem_app_out_l; [exact H1|]. intros Hp1. apply (Hd p Hp1). apply in_app_iff. now right. }
      rewrite E1, E2, E3. lia.
Qed.

(** ** blocks and inner cells *)
Definition rowf (f : nat -> nat) (w : nat * nat) : list (nat * nat) := map (fun k => (k, f k)) (seq (fst w) (snd w)).
Definition window (B : block) (w : nat * nat) : Prop := forall k, k < fst w \/ fst w + snd w <= k -> n_sol B k = 0.
Lemma satb_local B : local (vars B) (fun s => b1 (satb (mines_at s) B)).
Proof.
  intros s s' H. f_equal. apply eq_true_iff_eq. rewrite !satb_sat. split; apply sat_ext_in; intros p Hp; unfold mines_at; auto. symmetry. auto.
Qed.
Lemma sumn_count_phi (f : list pos -> bool) (phi : nat -> nat) L lo c : (forall s, In s L -> f s = true -> lo <= length s < lo + c) ->
  sumn (fun k => count (fun s => (length s =? k) && f s) L * phi k) (seq lo c) = sumn (fun s => b1 (f s) * phi (length s)) L.
Proof.
  induction L as [|s L IH]; intros H.
  - cbn [sumn]. apply sumn_zero. intros k _. now rewrite count_nil.
  - cbn [sumn]. rewrite <- IH by (intros; apply H; auto; now right).
    rewrite (@sumn_ext _ _ (fun k => (if (length s =? k) then b1 (f s) * phi (length s) else 0) + count (fun s => (length s =? k) && f s) L * phi k)).
    2:{ intros k _. rewrite count_cons. destruct (Nat.eqb_spec (length s) k) as [->|]; cbn [andb]; destruct (f s); cbn [b1]; lia. }
    rewrite sumn_add. f_equal. destruct (f s) eqn:E; cbn [b1].
    + apply sumn_one with (a0 := length s); [apply Nat.eq_dec|apply seq_NoDup|intros a; rewrite Nat.eqb_eq; split; congruence|]. apply in_seq. apply H; auto. now left.
    + apply sumn_zero. intros k _. destruct (length s =? k); lia.
Qed.
Lemma window_len B w s : window B w -> In s (solutions B) -> fst w <= length s < fst w + snd w.
Proof.
  intros H Hs. destruct (Nat.lt_ge_cases (length s) (fst w)) as [Hl|Hl]; [|destruct (Nat.le_gt_cases (fst w + snd w) (length s)) as [Hh|Hh]; [|lia]].
  - specialize (H (length s) (or_introl Hl)). unfold n_sol in H. pose proof (count_zero_inv H Hs) as Hz. cbn beta in Hz. now rewrite Nat.eqb_refl in Hz.
  - specialize (H (length s) (or_intror Hh)). unfold n_sol in H. pose proof (count_zero_inv H Hs) as Hz. cbn beta in Hz. now rewrite Nat.eqb_refl in Hz.
Qed.
Lemma block_counts B w : window B w -> counts (vars B) (fun s => b1 (satb (mines_at s) B)) (fun phi => sumn (fun kf => snd kf * phi (fst kf)) (rowf (n_sol B) w)).
Proof.
  intros H phi. unfold rowf. rewrite sumn_map. cbn [fst snd].
  rewrite (@sumn_ext _ _ (fun k => count (fun s => (length s =? k) && true) (solutions B) * phi k)).
  2:{ intros k _. f_equal. unfold n_sol. apply count_ext. intros s _. now rewrite andb_true_r. }
  rewrite (@sumn_count_phi (fun _ => true)) by (intros s Hs _; now apply window_len with B).
  unfold solutions. rewrite sumn_filter. apply sumn_ext. intros s _. cbn [b1]. lia.
Qed.
Lemma block_counts_at B w q : window B w -> In q (vars B) ->
  counts (vars B) (fun s => b1 (satb (mines_at s) B) * b1 (mem_pos q s)) (fun phi => sumn (fun kf => snd kf * phi (fst kf)) (rowf (fun k => n_sol_at B k q) w)).
Proof.
  intros H Hq phi. unfold rowf. rewrite sumn_map. cbn [fst snd]. unfold n_sol_at.
  rewrite (@sumn_count_phi (fun s => mem_pos q s)) by (intros s Hs _; now apply window_len with B).
  unfold solutions. rewrite sumn_filter. apply sumn_ext. intros s _. lia.
Qed.
Definition full (U : nat) (f : nat -> nat) (phi : nat -> nat) : nat := sumn (fun k => binom U k * f k * phi k) (seq 0 (S U)).
Lemma inner_counts inner : counts inner (fun _ => 1) (full (length inner) (fun _ => 1)).
Proof.
  intros phi. rewrite (@sumn_ext _ _ (fun s => phi (length s))) by (intros; lia). rewrite (subs_by_size inner phi). apply sumn_ext. intros k _. lia.
Qed.
Lemma inner_counts_at inner q : NoDup inner -> In q inner -> counts inner (fun s => length inner * b1 (mem_pos q s)) (full (length inner) (fun k => k)).
Proof.
  intros Nd Hq phi. unfold full. rewrite <- (subs_by_size_at phi Nd Hq), <- sumn_scale. apply sumn_ext. intros s _. destruct (mem_pos q s); cbn [b1]; lia.
Qed.
Lemma tag_local v q : In q v -> local v (fun s => b1 (mem_pos q s)).
Proof. intros Hq s s' H. now rewrite (H q Hq). Qed.
Lemma local_mult v f g : local v f -> local v g -> local v (fun s => f s * g s).
Proof. intros Hf Hg s s' H. now rewrite (Hf s s' H), (Hg s s' H). Qed.
Lemma local_const v c : local v (fun _ => c). Proof. intros s s' _. reflexivity. Qed.

(** ** the worlds of a position *)
Section World.
Variables (row column : nat) (g : board) (bl : list block).
Hypothesis Hprop : proper row column g.
Hypothesis Nd : NoDup (concat (map vars bl)).
Hypothesis Hfront : forall q, In q (concat (map vars bl)) <-> front_cell row column g q.
Hypothesis Hsats : forall v, sats v bl <-> consistent row column g (fun p => flaggedb g p || coveredb g p && v p).
Definition inner_cells : list pos := filter (innerb row column g) (positions row column).

Lemma inner_iff q : In q inner_cells <-> inner_cell row column g q.
Proof.
  unfold inner_cells, inner_cell, innerb. rewrite filter_In, in_positions, andb_true_iff, Z.eqb_eq, negb_true_iff, <- not_true_iff_false, existsb_exists.
  split.
  - intros (Hb & Hc & He). split; auto. split; auto. intros p Hp Hn Hnum. apply He. exists p. split; [|apply Z.ltb_lt; apply Hnum].
    apply in_zone. split; auto. now apply near_sym.
  - intros (Hb & Hc & He). split; auto. split; auto. intros (p & Hp & Hv). apply in_zone in Hp as [Hp Hn]. apply Z.ltb_lt in Hv.
    apply (He p Hp); [now apply near_sym|]. split; auto.
Qed.
Lemma parts_perm : Permutation (covered_cells row column g) (concat (map vars bl) ++ inner_cells).
Proof.
  apply NoDup_Permutation.
  - apply NoDup_filter, NoDup_positions.
  - apply NoDup_app_disj; auto. { apply NoDup_filter, NoDup_positions. }
    intros q H1 H2. apply Hfront in H1 as (_ & _ & p & Hp & Hn & Hnum). apply inner_iff in H2 as (_ & _ & H2). exact (H2 p Hp Hn Hnum).
  - intros q. unfold covered_cells. rewrite in_app_iff, filter_In, in_positions, inner_iff, Hfront. unfold coveredb. rewrite Z.eqb_eq. split.
    + intros [Hb Hc]. destruct (existsb (fun p => nearb p q && ((0 <=? cell g p) && (cell g p <? 10))%Z) (positions row column)) eqn:E.
      * left. apply existsb_exists in E as (p & Hp & Hx). apply in_positions in Hp. apply andb_true_iff in Hx as [X1 X2]. apply andb_true_iff in X2 as [X2 X3].
        split; auto. split; auto. exists p. split; auto. split; [now destruct (nearb_spec p q)|]. apply Z.leb_le in X2. apply Z.ltb_lt in X3. split; auto.
      * right. split; auto. split; auto. intros p Hp Hn Hnum. rewrite <- not_true_iff_false in E. apply E. apply existsb_exists. exists p. split; [now apply in_positions|].
        destruct (nearb_spec p q); [|contradiction]. destruct Hnum as [X1 X2]. apply Z.leb_le in X1. apply Z.ltb_lt in X2. rewrite X1, X2. reflexivity.
    + intros [(H1 & H2 & _)|(H1 & H2 & _)]; auto.
Qed.
Lemma consistentb_iff m : PossSpec.consistentb row column g m = true <-> consistent row column g m.
Proof.
  unfold PossSpec.consistentb, consistent. rewrite forallb_forall. split.
  - intros H p Hp. specialize (H p (proj2 (in_positions row column p) Hp)). apply andb_true_iff in H as [H H3]. apply andb_true_iff in H as [H1 H2].
    split; [|split].
    + intros E. rewrite E in H1. exact H1.
    + intros E1 E2. apply Z.eqb_neq in E1, E2. rewrite E1, E2 in H2. cbn in H2. now apply negb_true_iff.
    + intros [E1 E2]. apply Z.leb_le in E1. apply Z.ltb_lt in E2. rewrite E1, E2 in H3. now apply Z.eqb_eq.
  - intros H p Hp. apply in_positions in Hp. destruct (H p Hp) as (H1 & H2 & H3). rewrite !andb_true_iff. repeat split.
    + destruct (Z.eqb_spec (cell g p) 11); cbn; auto.
    + destruct (Z.eqb_spec (cell g p) 10), (Z.eqb_spec (cell g p) 11); cbn; auto. now rewrite H2.
    + destruct (Z.leb_spec 0 (cell g p)), (Z.ltb_spec (cell g p) 10); cbn; auto. apply Z.eqb_eq, H3. split; auto.
Qed.
Lemma consistent_same m m' : (forall p, m p = m' p) -> (consistent row column g m <-> consistent row column g m').
Proof.
  intros H. assert (E : forall p, adj_count row column m p = adj_count row column m' p) by (intros p; unfold adj_count; apply count_ext; intros q _; now rewrite H).
  unfold consistent. split; intros K p Hp; specialize (K p Hp); [rewrite <- H, <- E|rewrite H, E]; exact K.
Qed.
Lemma explains_iff s : incl s (covered_cells row column g) -> explains row column g s = forallb (satb (mines_at s)) bl.
Proof.
  intros Hi. apply eq_true_iff_eq. unfold explains. rewrite consistentb_iff, forallb_forall.
  rewrite <- (@Forall_forall _ (fun B => satb (mines_at s) B = true) bl).
  assert (E : Forall (fun B => satb (mines_at s) B = true) bl <-> sats (mines_at s) bl).
  { unfold sats. rewrite !Forall_forall. split; intros H B HB; apply satb_sat; auto. }
  rewrite E, Hsats. apply consistent_same. intros p. unfold with_flags. f_equal. unfold mines_at.
  destruct (coveredb g p) eqn:Ec; auto. cbn [andb]. apply mem_false. intros Hx. apply Hi in Hx. unfold covered_cells in Hx. apply filter_In in Hx as [_ Hx]. congruence.
Qed.

Definition satg (B : block) : list pos -> nat := fun s => b1 (satb (mines_at s) B).
Definition rowsB (bl : list block) (ws : list (nat * nat)) : list (list (nat * nat)) := map (fun '(B, w) => rowf (n_sol B) w) (combine bl ws).
Lemma gprod_satb l s : gprod (map satg l) s = b1 (forallb (satb (mines_at s)) l).
Proof. induction l as [|B l IH]; auto. cbn [map gprod forallb]. rewrite IH. unfold satg. destruct (satb _ B), (forallb _ l); reflexivity. Qed.
Lemma gprod_app l1 l2 s : gprod (l1 ++ l2) s = gprod l1 s * gprod l2 s.
Proof. induction l1 as [|x l1 IH]; cbn [app gprod]; [lia|]. rewrite IH. lia. Qed.
Lemma sat_locals l : Forall2 local (map vars l) (map satg l).
Proof. induction l as [|B l IH]; cbn [map]; constructor; auto. apply satb_local. Qed.
Lemma sat_counts l ws : Forall2 window l ws ->
  Forall2 (fun '(v, g) r => counts v g (fun phi => sumn (fun kf => snd kf * phi (fst kf)) r)) (combine (map vars l) (map satg l)) (rowsB l ws).
Proof. unfold rowsB. induction 1 as [|B w l ws H F IH]; cbn [map combine]; constructor; auto. now apply block_counts. Qed.

Let flags := flag_count row column g.
Let U := length inner_cells.
Definition exactly (m : nat) : nat -> nat := fun t => b1 (t =? m).
Lemma world_sum (h : list pos -> nat) M : flags <= M -> (forall s s', Permutation s s' -> h s = h s') ->
  sumn (fun s => b1 (worldb row column g M s) * h s) (subs (covered_cells row column g)) =
  sumn (fun s => gprod (map satg bl) s * h s * exactly (M - flags) (length s)) (subs (concat (map vars bl) ++ inner_cells)).
Proof.
  intros HM Hh.
  rewrite (@sumn_ext _ _ (fun s => gprod (map satg bl) s * h s * exactly (M - flags) (length s))).
  - apply subs_perm; [apply parts_perm|]. intros s s' P. rewrite (Hh s s' P), (Permutation_length P). do 2 f_equal. rewrite !gprod_satb. f_equal.
    apply forallb_ext_in. intros B _. apply satb_ext. intros p. unfold mines_at. now apply mem_permut.
  - intros s Hs. apply subs_incl in Hs. unfold worldb. rewrite (explains_iff Hs), gprod_satb. fold flags. unfold exactly.
    destruct (forallb _ bl); cbn [andb b1]; [|lia]. destruct (Nat.eqb_spec (flags + length s) M), (Nat.eqb_spec (length s) (M - flags)); cbn [b1]; lia.
Qed.
Lemma nd_parts : NoDup (concat (map vars bl) ++ inner_cells).
Proof. eapply Permutation_NoDup; [apply parts_perm|]. apply NoDup_filter, NoDup_positions. Qed.
Theorem n_worlds_ways ws M : Forall2 window bl ws -> flags <= M ->
  n_worlds row column g M = ways (full U (fun _ => 1)) (rowsB bl ws) (exactly (M - flags)).
Proof.
  intros Hw HM. unfold n_worlds. rewrite count_b1.
  rewrite (@sumn_ext _ _ (fun s => b1 (worldb row column g M s) * (fun _ => 1) s)) by (intros; lia).
  rewrite world_sum by auto. apply (@subs_ways (map vars bl) (map satg bl) (rowsB bl ws) inner_cells (fun _ => 1)).
  - apply nd_parts. - apply sat_locals. - apply local_const. - apply inner_counts. - now apply sat_counts.
Qed.
Theorem n_worlds_at_inner ws M q : Forall2 window bl ws -> flags <= M -> inner_cell row column g q ->
  U * n_worlds_at row column g M q = ways (full U (fun k => k)) (rowsB bl ws) (exactly (M - flags)).
Proof.
  intros Hw HM Hq. apply inner_iff in Hq. unfold n_worlds_at. rewrite count_b1, <- sumn_scale.
  rewrite (@sumn_ext _ _ (fun s => b1 (worldb row column g M s) * (fun s => U * b1 (mem_pos q s)) s)).
  2:{ intros s _. unfold mines_at. destruct (worldb _ _ _ _ _), (mem_pos q s); cbn [andb b1]; lia. }
  rewrite world_sum; auto.
  - apply (@subs_ways (map vars bl) (map satg bl) (rowsB bl ws) inner_cells (fun s => U * b1 (mem_pos q s))).
    + apply nd_parts. + apply sat_locals. + apply local_mult; [apply local_const|now apply tag_local].
    + apply inner_counts_at; auto. apply NoDup_filter, NoDup_positions. + now apply sat_counts.
  - intros s s' P. now rewrite (mem_permut q P).
Qed.
Theorem n_worlds_at_block l1 B l2 w1 w w2 M q : bl = l1 ++ B :: l2 -> Forall2 window l1 w1 -> window B w -> Forall2 window l2 w2 -> flags <= M -> In q (vars B) ->
  n_worlds_at row column g M q = ways (full U (fun _ => 1)) (rowsB l1 w1 ++ rowf (fun k => n_sol_at B k q) w :: rowsB l2 w2) (exactly (M - flags)).
Proof.
  intros Eb H1 Hw H2 HM Hq. unfold n_worlds_at. rewrite count_b1.
  rewrite (@sumn_ext _ _ (fun s => b1 (worldb row column g M s) * (fun s => b1 (mem_pos q s)) s)).
  2:{ intros s _. unfold mines_at. destruct (worldb _ _ _ _ _), (mem_pos q s); cbn [andb b1]; lia. }
  rewrite world_sum; auto.
  2:{ intros s s' P. now rewrite (mem_permut q P). }
  set (gs := map satg l1 ++ (fun s => satg B s * b1 (mem_pos q s)) :: map satg l2).
  rewrite (@sumn_ext _ _ (fun s => gprod gs s * (fun _ => 1) s * exactly (M - flags) (length s))).
  2:{ intros s _. rewrite Eb, map_app. unfold gs. cbn [map]. rewrite !gprod_app. cbn [gprod]. lia. }
  apply (@subs_ways (map vars bl) gs _ inner_cells (fun _ => 1)).
  - apply nd_parts.
  - rewrite Eb, map_app. cbn [map]. apply Forall2_app; [apply sat_locals|]. constructor; [|apply sat_locals]. apply local_mult; [apply satb_local|now apply tag_local].
  - apply local_const.
  - apply inner_counts.
  - rewrite Eb, map_app. unfold gs. cbn [map].
    assert (Ec : forall {X Y} (a : list X) (b : list Y) a' b', length a = length b -> combine (a ++ a') (b ++ b') = combine a b ++ combine a' b').
    { intros X Y a. induction a as [|x a IH]; intros [|y b] a' b' L; try discriminate L; auto. cbn in L. cbn [app combine]. now rewrite IH by lia. }
    rewrite Ec by (now rewrite !map_length). cbn [combine]. apply Forall2_app; [now apply sat_counts|]. constructor; [|now apply sat_counts].
    now apply block_counts_at.
Qed.
End World.
