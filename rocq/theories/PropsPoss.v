(** * PropsPoss: C33 and C65. *)
From Verif Require Import Base Spec BaseFacts LayMine Matrix Solve Utils SolverSpec MatrixProofs Possibility PossSpec PossProofs PossSums PossCode PossMain.
Open Scope nat_scope.

(** C33. Exact arithmetic instead of floating point numbers, hence the suffix. A position with an
    explanation, blocks of at most 55 cells, [M] mines altogether. More flags than mines: error 17. No
    explanation with at most [M] mines: error 3. Otherwise the function lists exactly the border cells,
    each once, with the fraction (worlds with a mine there) / (worlds); the fraction for the inner cells
    is that of each of them. *)
Theorem C33_cal_possibility_partial : forall row column g M, satisfiable row column g -> proper row column g -> small_blocks g ->
  (M < flag_count row column g -> cal_possibility g (Count M) = Err 17) /\
  (flag_count row column g <= M -> (forall r, r <= M -> n_worlds row column g r = 0) -> cal_possibility g (Count M) = Err 3) /\
  (forall r, r <= M -> n_worlds row column g r <> 0 ->
   exists p pu range len, cal_possibility g (Count M) = Ok (p, pu, range, len) /\
     NoDup (map fst p) /\ (forall q, In q (map fst p) <-> front_cell row column g q) /\
     (forall q a b, In (q, (a, b)) p -> a = n_worlds_at row column g M q /\ b = n_worlds row column g M) /\
     (forall q, inner_cell row column g q -> is_prob pu (n_worlds_at row column g M q) (n_worlds row column g M)) /\
     ((forall q, ~ inner_cell row column g q) -> pu = (0, 0))).
Proof.
  intros row column g M Hsat Hprop Hsmall. destruct (situation_ok Hsat Hsmall) as (bl & W & St).
  pose proof (least_ok Hprop St) as [HL1 HL2]. set (flags := flag_count row column g) in *. set (mn := nsum (map fst W)) in *.
  pose proof (@cal_ok row column g Hprop bl W St (Count M) (M - flags)) as HC. fold flags mn in HC.
  assert (HD : flags <= M -> (if M <? flags then Err 17 else Ok (M - flags)) = Ok (M - flags)) by (intros H; destruct (Nat.ltb_spec M flags); [lia|reflexivity]).
  split; [|split].
  - intros H. rewrite (cal_unfold St). fold flags. destruct (Nat.ltb_spec M flags); [reflexivity|lia].
  - intros H Hno. rewrite HC by auto. destruct (Nat.ltb_spec (M - flags) mn); auto.
    exfalso. apply HL1. apply Hno. lia.
  - intros r Hr Hw. assert (Hge : flags + mn <= M) by (destruct (Nat.lt_ge_cases M (flags + mn)); [exfalso; apply Hw, HL2; lia|auto]).
    rewrite HC by (apply HD; lia). clear HC. destruct (Nat.ltb_spec (M - flags) mn); [lia|].
    do 4 eexists. split; [reflexivity|].
    pose proof (entries_cells St (M - flags)) as P.
    split; [eapply Permutation_NoDup; [symmetry; exact P|apply (st_nd St)]|]. split.
    { intros q. rewrite <- (st_front St q). split; apply Permutation_in; auto. now symmetry. }
    split. { intros q a b Hin. pose proof (entries_value Hprop St Hin) as [E1 E2]. fold flags in E1, E2. replace (flags + (M - flags)) with M in * by lia. auto. }
    split.
    + intros q Hq. pose proof (inner_value Hprop St (M - flags) Hq) as E. fold flags in E. replace (flags + (M - flags)) with M in * by lia. split; cbn [fst snd].
      * rewrite E. lia.
      * intros Hn. apply (inner_iff Hprop) in Hq. destruct (inner_cells row column g); [destruct Hq|]. cbn [length]. lia.
    + intros Hno. assert (HU : length (inner_cells row column g) = 0).
      { destruct (inner_cells row column g) as [|q l] eqn:E; auto. exfalso. apply (Hno q). apply (inner_iff Hprop). rewrite E. now left. }
      rewrite (no_inner St) by auto. rewrite HU, Nat.mul_0_r. reflexivity.
Qed.
Print Assumptions C33_cal_possibility_partial.

Lemma least_unique row column g a b : least_mines row column g a -> least_mines row column g b -> a = b.
Proof. intros [A1 A2] [B1 B2]. destruct (Nat.lt_trichotomy a b) as [H|[H|H]]; auto; exfalso; [apply A1, B2|apply B1, A2]; auto. Qed.
Lemma most_unique row column g a b : most_mines row column g a -> most_mines row column g b -> a = b.
Proof. intros [A1 A2] [B1 B2]. destruct (Nat.lt_trichotomy a b) as [H|[H|H]]; auto; exfalso; [apply B1, A2|apply A1, B2]; auto. Qed.
Lemma n_inner_cells row column g : proper row column g -> n_inner row column g = length (inner_cells row column g).
Proof.
  intros Hp. change (length (inner_cells row column g)) with (count (innerb row column g) (positions row column)). apply count_ext. intros q Hq.
  apply eq_true_iff_eq. assert (E : innerb row column g q = true <-> inner_cell row column g q).
  { rewrite <- (inner_iff Hp). unfold inner_cells. rewrite filter_In. tauto. }
  rewrite E. unfold inner_cell. rewrite andb_true_iff, negb_true_iff, <- not_true_iff_false, existsb_exists. unfold coveredb. rewrite Z.eqb_eq. apply in_positions in Hq.
  split.
  - intros [H1 H2]. split; auto. split; auto. intros p Hb Hn [N1 N2]. apply H2. exists p. split; [now apply in_positions|]. apply Z.leb_le in N1. apply Z.ltb_lt in N2. rewrite N1, N2.
    destruct (nearb_spec p q); auto.
  - intros (_ & H1 & H2). split; auto. intros (p & Hb & Hx). apply andb_true_iff in Hx as [Hx X3]. apply andb_true_iff in Hx as [X1 X2].
    apply (H2 p); [now apply in_positions|now destruct (nearb_spec p q)|]. apply Z.leb_le in X2. apply Z.ltb_lt in X3. split; auto.
Qed.

(** The three mine numbers: the least possible number, the given number, and the greatest possible
    number, the latter however capped at the given number plus the number of inner cells. The last
    component is the size of the largest block. *)
Theorem C33_range : forall row column g M lo hi, satisfiable row column g -> proper row column g -> small_blocks g ->
  least_mines row column g lo -> most_mines row column g hi -> lo <= M ->
  exists p pu len, cal_possibility g (Count M) = Ok (p, pu, (lo, M, Nat.min hi (M + n_inner row column g)), len) /\
    forall bl k1 k2, refresh_matrixs g = Ok (bl, k1, k2) ->
      (forall B, In B bl -> length (vars B) <= len) /\ (bl <> [] -> exists B, In B bl /\ length (vars B) = len).
Proof.
  intros row column g M lo hi Hsat Hprop Hsmall Hlo Hhi HM. destruct (situation_ok Hsat Hsmall) as (bl & W & St).
  pose proof (least_unique Hlo (least_ok Hprop St)) as El. pose proof (most_unique Hhi (most_ok Hprop St)) as Eh.
  set (flags := flag_count row column g) in *.
  pose proof (@cal_ok row column g Hprop bl W St (Count M) (M - flags)) as HC. fold flags in HC. rewrite HC.
  2:{ destruct (Nat.ltb_spec M flags); [lia|reflexivity]. }
  destruct (Nat.ltb_spec (M - flags) (nsum (map fst W))); [lia|]. rewrite (n_inner_cells Hprop).
  do 3 eexists. split.
  - do 3 f_equal. apply f_equal2; [apply f_equal2|]; lia.
  - intros bl' k1 k2 E. rewrite (st_refresh St) in E. injection E as <- _ _. clear. unfold biggest. rewrite <- fold_left_rev_right, rev_involutive.
    split.
    + intros B HB. induction bl as [|B' bl IH]; [destruct HB|]. cbn [map fold_right]. destruct HB as [->|HB]; [lia|]. specialize (IH HB). lia.
    + intros Hne. induction bl as [|B bl IH]; [contradiction|]. cbn [map fold_right]. destruct bl as [|B2 bl].
      * exists B. split; [now left|]. cbn. lia.
      * destruct IH as (B' & Hi & E); [discriminate|]. set (r := fold_right _ _ _) in *. destruct (Nat.le_gt_cases r (length (vars B))).
        -- exists B. split; [now left|]. lia.
        -- exists B'. split; [now right|]. lia.
Qed.
Print Assumptions C33_range.

(** A ratio instead of a number (k: that part of all cells, rounded down): the number of mines is [k],
    forced into the possible range; with fewer mines than flags the subtraction underflows (a panic in a
    checked build). *)
Theorem C33_ratio : forall row column g k lo hi, satisfiable row column g -> proper row column g -> small_blocks g ->
  least_mines row column g lo -> most_mines row column g hi ->
  (k < flag_count row column g -> cal_possibility g (Ratio k) = Panic) /\
  (flag_count row column g <= k -> cal_possibility g (Ratio k) = cal_possibility g (Count (Nat.min (Nat.max k lo) hi))).
Proof.
  intros row column g k lo hi Hsat Hprop Hsmall Hlo Hhi. destruct (situation_ok Hsat Hsmall) as (bl & W & St).
  pose proof (least_unique Hlo (least_ok Hprop St)) as El. pose proof (most_unique Hhi (most_ok Hprop St)) as Eh.
  set (flags := flag_count row column g) in *. split.
  - intros H. rewrite (cal_unfold St). fold flags. unfold usub. destruct (Nat.leb_spec flags k); [lia|reflexivity].
  - intros H. set (m := Nat.min (Nat.max (k - flags) (nsum (map fst W))) (nsum (map top W) + length (inner_cells row column g))).
    rewrite (@cal_ok row column g Hprop bl W St (Ratio k) m).
    2:{ fold flags. unfold usub. destruct (Nat.leb_spec flags k); [reflexivity|lia]. }
    rewrite (@cal_ok row column g Hprop bl W St (Count _) m); auto.
    fold flags. destruct (Nat.ltb_spec (Nat.min (Nat.max k lo) hi) flags); [lia|]. f_equal. unfold m. lia.
Qed.
Print Assumptions C33_ratio.

(** Too many mines are not reported: the fractions are all 0/0, NaN. *)
Corollary C33_too_many : forall row column g M hi, satisfiable row column g -> proper row column g -> small_blocks g ->
  most_mines row column g hi -> hi < M ->
  exists p pu range len, cal_possibility g (Count M) = Ok (p, pu, range, len) /\ forall q a b, In (q, (a, b)) p -> a = 0 /\ b = 0.
Proof.
  intros row column g M hi Hsat Hprop Hsmall [H1 H2] HM. destruct (@C33_cal_possibility_partial row column g M Hsat Hprop Hsmall) as (_ & _ & H).
  destruct (H hi ltac:(lia) H1) as (p & pu & range & len & E & _ & _ & Hv & _). exists p, pu, range, len. split; auto.
  intros q a b Hin. destruct (Hv q a b Hin) as [-> ->]. rewrite H2 by auto. split; auto.
  assert (G : n_worlds_at row column g M q <= n_worlds row column g M).
  { unfold n_worlds_at, n_worlds. rewrite !count_b1. apply TableProofs.sumn_le. intros s _. destruct (worldb _ _ _ _ _), (mines_at s q); cbn; lia. }
  rewrite H2 in G by auto. lia.
Qed.
Print Assumptions C33_too_many.
