(** * BigBlocksFloat: C81 in f64 arithmetic. *)
From Coq Require Import ZArith Reals Lia Lra Bool List.
From Flocq Require Import Core IEEE754.BinarySingleNaN IEEE754.Binary IEEE754.Bits.
From Verif Require Import Base Spec BaseFacts LayMine Matrix Solve Utils UtilsProofs SolverSpec MatrixProofs LinFacts ChunkProofs CombineProofs TableProofs EnumProofs EnumBlock EnumSolve SolveProofs PosProofs MatrixMeaning FloatTime FloatQuot FloatTrace BigNum FloatNear BigNumProofs BigBinom PropsBigNum
  Possibility PossSpec PossProofs PossSums PossCode PossMain PropsPoss PossBoard PropsOpening PossFloat PossFloatProofs PossFloatMain PossFloatPos PropsPossFloat RobustProofs PropsRobust OpenTotal RobustFloat OpenTotalFloat BigBlocks.
Import ListNotations.
Open Scope nat_scope.
Local Notation val := (B2R 53 1024).
#[local] Opaque Nat.pow.

(** Only the blocks of at most 55 cells are enumerated: [few_choices] for these. *)
Definition few_kept_choices (g : board) (N : nat) : Prop :=
  forall bl k1 k2, refresh_matrixs g = Ok (bl, k1, k2) ->
    fold_right Nat.mul 1 (map (fun B => length (vars B) + 1) (filter (fun B => length (vars B) <=? 55) bl)) <= N.

Section Kept.
Variables (row column : nat) (h : board).
Hypothesis Hprop : proper row column h.
Variables (bl : list block) (W : list (nat * nat)).
Hypothesis Rd : reduced row column h bl W.
Hypothesis Hsmall : Forall (fun B => length (vars B) <= ENUM_LIMIT) bl.
Let U := length (inner_cells row column h).
Let flags := flag_count row column h.
Let mn := nsum (map fst W).
Let mx := nsum (map top W).
Let ps := map pieceB (combine bl W).
Let es := map (fun B => length (vars B)) bl.
Lemma tables_small' : Forall2 tab_small (map p_table ps) es.
Proof.
  unfold ps, es. rewrite map_map. pose proof (st_W Rd) as F. pose proof Hsmall as H. clear - F H. induction F as [|B w bl W HB F IH]; [constructor|].
  inversion H; subst. cbn [combine map]. constructor; auto. split; [exact H2|]. cbn [pieceB p_table fst snd]. unfold tabB. apply Forall_forall. intros r Hr. apply in_map_iff in Hr as (k & <- & _). cbn [line fst snd]. apply n_sol_small.
Qed.
Lemma cells_small' : Forall (fun pc => length (p_table pc) <= 56 /\ Forall (fun r => Forall (fun c => c <= 2 ^ 55) (snd r)) (p_table pc)) ps.
Proof.
  unfold ps. pose proof (st_W Rd) as F. pose proof Hsmall as H. clear - F H. induction F as [|B w bl W HB F IH]; [constructor|].
  inversion H; subst. cbn [combine map]. constructor; auto. cbn [pieceB p_table fst snd]. unfold tabB. change ENUM_LIMIT with 55 in H2. split.
  - rewrite map_length, seq_length. apply window_small in HB. lia.
  - apply Forall_forall. intros r Hr. apply in_map_iff in Hr as (k & <- & _). cbn [line fst snd]. apply Forall_forall. intros c Hc. apply in_map_iff in Hc as (gr & <- & _).
    apply Nat.le_trans with (1 := n_sol_at_pow B k _). now apply pow2_mono.
Qed.
Lemma covered_len' : tot es + U = length (covered_cells row column h).
Proof.
  pose proof (@parts_perm row column h bl Hprop (st_nd Rd) (st_front Rd)) as P. apply Permutation_length in P. rewrite P, app_length. unfold es, U. now rewrite tot_concat.
Qed.
Lemma blocks_len' : length ps <= tot es.
Proof.
  unfold ps, es. rewrite map_length, combine_length. pose proof (st_good Rd) as H. assert (L : length bl <= tot (map (fun B => length (vars B)) bl)); [|lia].
  clear - H. induction H as [|B l HB F IH]; auto. cbn [map length]. apply block_some in HB. unfold tot in *. cbn [fold_right] in *. lia.
Qed.
Lemma prod_le' : prod (map (fun pc => length (p_table pc)) ps) <= prod (map (fun B => S (length (vars B))) bl).
Proof.
  unfold ps. pose proof (st_W Rd) as F. clear - F. induction F as [|B w bl W HB F IH]; auto.
  cbn [combine map prod pieceB p_table fst snd]. unfold tabB. rewrite map_length, seq_length. apply Nat.mul_le_mono; auto. now apply window_small.
Qed.
End Kept.

Section Both.
Variables (row column : nat) (g h : board).
Hypothesis Hsat : satisfiable row column g.
Hypothesis Hprop : proper row column g.
Hypothesis Hh : without_oversized row column g h.
Let flags := flag_count row column h.
Let U := length (inner_cells row column h).
Lemma kept_filter bl : filter (fun B => negb (bigb B)) bl = filter (fun B => length (vars B) <=? 55) bl.
Proof. apply filter_ext. intros B. unfold bigb. change ENUM_LIMIT with 55. destruct (Nat.ltb_spec 55 (length (vars B))), (Nat.leb_spec (length (vars B)) 55); auto; lia. Qed.
Lemma big_both N : length (covered_cells row column g) <= 800 -> few_kept_choices g N -> N <= 2 ^ 38 ->
  exists sm W, reduced row column h sm W /\ forall spec, agrees N (cal_possibility g spec) (cal_possibility_f g spec) /\
    forall m, (match spec with
               | Ratio k => let* d := usub k flags in Ok (Nat.min (Nat.max d (nsum (map fst W))) (nsum (map top W) + U))
               | Count m => if m <? flags then Err 17 else Ok (m - flags)
               end) = Ok m -> nsum (map fst W) <= m ->
      exists p range len, cal_possibility g spec = Ok (p, (ways (full U (fun k => k)) (rowsB sm W) (exactly m), n_worlds row column h (flags + m) * U), range, len).
Proof.
  intros Hc HN HN2. destruct (split_ok Hsat Hprop Hh) as (bl & W & E & R & Hs & Hlen & EP). pose proof (proper_h Hprop Hh) as Hph.
  rewrite <- (flags_same Hh) in E. fold flags in E. pose proof (HN _ _ _ E) as HNb. rewrite <- kept_filter in HNb. rewrite <- prod_fold in HNb.
  exists (filter (fun B => negb (bigb B)) bl), W. split; [exact R|]. intros spec.
  set (sm := filter (fun B => negb (bigb B)) bl) in *. fold U in Hlen. set (mn := nsum (map fst W)). set (mx := nsum (map top W)).
  set (mm := match spec with Ratio _ => _ | Count _ => _ end). set (ps := map pieceB (combine sm W)) in *. set (es := map (fun B => length (vars B)) sm).
  destruct (mins_ok (st_W R)) as [M1 M2]. fold ps mn in M1. fold ps mx in M2.
  assert (Ex : cal_possibility g spec = let* m := mm in if Nat.min mx m <? mn then Err 3 else
      let* (p, pu) := posterior ps U m mn (Nat.min mx m) in Ok (p, pu, (mn + flags, m + flags, Nat.min mx m + flags + U), biggest bl)).
  { unfold cal_possibility. rewrite E. cbn [bind]. change (filter (fun B : block => ENUM_LIMIT <? length (vars B)) bl) with (filter bigb bl).
    change (filter (fun B : block => negb (ENUM_LIMIT <? length (vars B))) bl) with sm. rewrite Hlen.
    revert EP. destruct (mapM (fun B => let* (A, x, groups) := combine_cells (map fst (eqs B)) (vars B) in Ok (B, A, x, groups)) sm) as [sq| | |]; cbn [bind]; intros EP; try discriminate EP.
    rewrite EP. cbn [bind]. rewrite M1, M2. cbn [bind]. reflexivity. }
  assert (Ef : cal_possibility_f g spec = let* m := mm in if Nat.min mx m <? mn then Err 3 else
      let* (p, pu) := posterior_f ps U m mn (Nat.min mx m) in Ok (p, pu, (mn + flags, m + flags, Nat.min mx m + flags + U), biggest bl)).
  { unfold cal_possibility_f. rewrite E. cbn [bind]. change (filter (fun B : block => ENUM_LIMIT <? length (vars B)) bl) with (filter bigb bl).
    change (filter (fun B : block => negb (ENUM_LIMIT <? length (vars B))) bl) with sm. rewrite Hlen.
    revert EP. destruct (mapM (fun B => let* (A, x, groups) := combine_cells (map fst (eqs B)) (vars B) in Ok (B, A, x, groups)) sm) as [sq| | |]; cbn [bind]; intros EP; try discriminate EP.
    rewrite EP. cbn [bind]. rewrite M1, M2. cbn [bind]. reflexivity. }
  assert (Hmm : mn <= mx).
  { pose proof (st_W R) as F. unfold mn, mx. rewrite !nsum_sumn. clear - F. clearbody sm. induction F as [|B w l W0 (Hc & _) F IH]; cbn [map sumn]; auto. unfold top at 1. lia. }
  assert (PO : forall m, mn <= Nat.min mx m -> posterior ps U m mn (Nat.min mx m) = Ok (entries sm W U m, (ways (full U (fun k => k)) (rowsB sm W) (exactly m), n_worlds row column h (flags + m) * U))).
  { intros m Hm. pose proof (@posterior_ok sm W U m (st_W R) (st_good R)) as P. cbv zeta in P. fold mn mx ps in P. rewrite P by auto.
    unfold worlds_total. rewrite (worlds_ok_h Hph R) by (fold flags; lia). fold flags. replace (flags + m - flags) with m by lia. reflexivity. }
  split.
  - rewrite Ex, Ef. clear Ex Ef. destruct mm as [m| | |]; cbn [bind]; try reflexivity. destruct (Nat.ltb_spec (Nat.min mx m) mn) as [|Hm]; [reflexivity|].
    assert (CL : tot es + U = length (covered_cells row column h)) by exact (covered_len' Hph R).
    assert (BL : length ps <= tot es) by exact (blocks_len' R).
    assert (PL : prod (map (fun pc => length (p_table pc)) ps) <= prod (map (fun B => S (length (vars B))) sm)) by exact (prod_le' R).
    rewrite (covered_list Hh) in CL.
    pose proof (@posterior_sim ps es U m mn (Nat.min mx m) (tables_small' R Hs) (cells_small' R Hs) ltac:(lia) ltac:(lia) ltac:(lia)) as PS. cbv zeta in PS.
    rewrite (PO m Hm) in PS |- *. destruct (PS _ eq_refl) as ([p' pu'] & -> & F1 & F2). cbn [fst snd] in F1, F2. cbn [bind agrees].
    assert (HG : 2 * prod (map (fun pc => length (p_table pc)) ps) + 10 * 800 <= grade N) by (unfold grade; lia).
    exists p', pu'. split; [reflexivity|]. split.
    + clear - F1 HG. induction F1 as [|a b l l' [Ha Hb] F IH]; constructor; auto. split; auto. now apply (frep_mono HG).
    + apply (frep_mono HG). apply F2. exact (no_inner_h R m).
  - intros m Em Hm. fold mm in Em. rewrite Ex, Em. cbn [bind]. destruct (Nat.ltb_spec (Nat.min mx m) mn); [lia|]. rewrite (PO m) by lia. cbn [bind]. eauto.
Qed.
End Both.

(** C81 in f64 arithmetic: the values of C33 for [h], with the same bounds. *)
Theorem C81_float : forall row column g h M N, satisfiable row column g -> proper row column g -> without_oversized row column g h ->
  length (covered_cells row column g) <= 800 -> few_kept_choices g N -> N <= 2 ^ 38 -> 1 <= M -> (Z.of_nat M < 2 ^ 53)%Z ->
  (M < flag_count row column g -> possibility_f64 g (f_of M) = Err 17) /\
  (flag_count row column g <= M -> (forall r, r <= M -> n_worlds row column h r = 0) -> possibility_f64 g (f_of M) = Err 3) /\
  (forall r, r <= M -> n_worlds row column h r <> 0 ->
   exists p pu range len, possibility_f64 g (f_of M) = Ok (p, pu, range, len) /\
     NoDup (map fst p) /\ (forall q, In q (map fst p) <-> front_cell row column h q) /\
     (forall q x, In (q, x) p -> f_prob N x (n_worlds_at row column h M q) (n_worlds row column h M)) /\
     (forall q, inner_cell row column h q -> f_prob N pu (n_worlds_at row column h M q) (n_worlds row column h M)) /\
     ((forall q, ~ inner_cell row column h q) -> is_nan 53 1024 pu = true)).
Proof.
  intros row column g h M N Hsat Hprop Hh Hc HN HN2 HM1 HM2. pose proof (proper_h Hprop Hh) as Hph.
  rewrite (@f64_count row column g M) by (auto; apply Hsat).
  destruct (@big_both row column g h Hsat Hprop Hh N Hc HN HN2) as (sm & W & R & Both). destruct (Both (Count M)) as [Ag Val]. clear Both.
  destruct (@C81_cal_possibility row column g h M Hsat Hprop Hh) as (X1 & X2 & X3).
  split; [|split].
  - intros H. rewrite (X1 H) in Ag. exact Ag.
  - intros H1 H2. rewrite (X2 H1 H2) in Ag. exact Ag.
  - intros r Hr Hw. destruct (X3 r Hr Hw) as (p & pu & range & len & E & Nd & Hf & Hv & _). pose proof E as E0. rewrite E in Ag. cbn [agrees] in Ag.
    destruct Ag as (p' & pu' & -> & F & Fu). exists p', pu', range, len. split; [reflexivity|].
    assert (Ef : map fst p' = map fst p) by (clear - F; induction F as [|a b l l' [Ha _] F IH]; cbn [map]; congruence).
    rewrite Ef. split; auto. split; auto.
    pose proof (least_ok_h Hph R) as [HL1 HL2].
    assert (Hge : flag_count row column h + nsum (map fst W) <= M) by (destruct (Nat.lt_ge_cases M (flag_count row column h + nsum (map fst W))); [exfalso; apply Hw, HL2; lia|auto]).
    assert (Epu : pu = (ways (full (length (inner_cells row column h)) (fun k => k)) (rowsB sm W) (exactly (M - flag_count row column h)), n_worlds row column h M * length (inner_cells row column h))).
    { destruct (Val (M - flag_count row column h)) as (p1 & range1 & len1 & E1).
      - destruct (Nat.ltb_spec M (flag_count row column h)); [lia|reflexivity].
      - lia.
      - replace (flag_count row column h + (M - flag_count row column h)) with M in E1 by lia. congruence. }
    split; [|split].
    + intros q x Hin. clear - F Hv Hin HN2. induction F as [|[q1 [a b]] [q2 y] l l' [Ha Hb] F IH]; [destruct Hin|]. cbn [fst snd] in Ha, Hb. subst q2. destruct Hin as [Eq|Hin].
      * injection Eq as <- <-. destruct (Hv q1 a b (or_introl eq_refl)) as [-> ->]. apply frep_prob; auto. apply at_le.
      * apply IH; auto. intros. apply Hv. now right.
    + intros q Hq. rewrite Epu in Fu. pose proof (inner_value_h Hph R (M - flag_count row column h) Hq) as Ev. rewrite Ev in Fu.
      replace (flag_count row column h + (M - flag_count row column h)) with M in Fu by lia.
      apply (frep_scale HN2) with (2 := Fu); [|apply at_le]. apply (inner_iff Hph) in Hq. destruct (inner_cells row column h); [destruct Hq|discriminate].
    + intros Hno. assert (HU : length (inner_cells row column h) = 0).
      { destruct (inner_cells row column h) as [|q l] eqn:Ei; auto. exfalso. apply (Hno q). apply (inner_iff Hph). rewrite Ei. now left. }
      destruct Fu as [_ Fu]. apply Fu; rewrite Epu; cbn [fst snd]; [lia|now apply (no_inner_h R)].
Qed.
Print Assumptions C81_float.

Theorem C81_onboard_float : forall row column g h M N r, satisfiable row column g -> proper row column g -> without_oversized row column g h ->
  length (covered_cells row column g) <= 800 -> few_kept_choices g N -> N <= 2 ^ 38 -> 1 <= M -> (Z.of_nat M < 2 ^ 53)%Z ->
  r <= M -> n_worlds row column h r <> 0 ->
  exists P range, possibility_onboard_f64 g (f_of M) = Ok (P, range) /\ rect row column P /\
    forall i j, inb row column (i, j) -> exists x, get P i j = Ok x /\
      (cell g (i, j) = 11%Z -> x = f_one) /\
      (cell g (i, j) = 10%Z -> f_prob N x (n_worlds_at row column h M (i, j)) (n_worlds row column h M)) /\
      (cell g (i, j) <> 11%Z -> cell g (i, j) <> 10%Z -> x = f_zero).
Proof.
  intros row column g h M N r Hsat Hprop Hh Hc HN HN2 HM1 HM2 HM Hw. pose proof Hsat as (Hr & H0 & _).
  destruct (@C81_float row column g h M N Hsat Hprop Hh Hc HN HN2 HM1 HM2) as (_ & _ & H). destruct (H r HM Hw) as (p & pu & range & len & E & Nd & Hf & Hv & Hi & _). clear H.
  rewrite (@f64_count row column g M) in E by auto.
  assert (Hlow : forall q x, In (q, x) p -> f_lt x f_minus_half = false).
  { destruct (@big_both row column g h Hsat Hprop Hh N Hc HN HN2) as (sm & W & _ & Both). destruct (Both (Count M)) as [Ag _]. clear Both.
    destruct (@C81_cal_possibility row column g h M Hsat Hprop Hh) as (_ & _ & X3). destruct (X3 r HM Hw) as (p0 & pu0 & range0 & len0 & E0 & _ & _ & Hv0 & _).
    rewrite E0 in Ag. cbn [agrees] in Ag. destruct Ag as (p' & pu' & E' & F & _). assert (p' = p) by congruence. subst p'. clear - F Hv0 HN2.
    induction F as [|[q1 [a b]] [q2 y] l l' [Ha Hb] F IH]; [intros q x []|]. cbn [fst snd] in Ha, Hb. subst q2. intros q x [Eq|Hin].
    - injection Eq as <- <-. apply (@prob_not_low N y a b); auto. destruct (Hv0 q1 a b (or_introl eq_refl)) as [-> ->]. apply at_le.
    - apply (IH (fun q a b H => Hv0 q a b (or_intror H)) q x Hin). }
  unfold possibility_onboard_f64. rewrite (ncolsR_ok Hr H0). cbn [bind]. rewrite C33_parameter by auto. unfold cal_possibility_onboard_f.
  rewrite (nrows_ok Hr), (ncolsR_ok Hr H0). cbn [bind]. rewrite E. cbn [bind].
  destruct (@put_ok_f row column p (mkboard row column f_minus_one) (rect_mkboard _ _ _) Nd) as (p1 & E1 & Hp1 & V1 & O1). { intros q Hq. apply Hf in Hq. apply Hq. }
  rewrite E1. cbn [bind]. destruct (@finish_ok_f row column g Hr pu (grid row column) p1 Hp1) as (p2 & E2 & Hp2 & V2 & _); [apply NoDup_positions|intros q Hq; now apply in_positions|].
  match goal with |- context [bind ?X _] => change X with (foldM (finish_step g pu) (grid row column) p1) end. rewrite E2. cbn [bind].
  do 2 eexists. split; [reflexivity|]. split; auto. intros i j Hb. set (q := (i, j)) in *. exists (gcell f_zero p2 q). split; [exact (get_gok f_zero Hp2 Hb)|].
  rewrite V2 by (now apply in_positions). unfold final_f.
  destruct (Z.eqb_spec (cell g q) 11) as [E11|N11]; [split; [auto|split; [congruence|congruence]]|]. split; [contradiction|].
  assert (K10 : cell h q = 10%Z <-> cell g q = 10%Z).
  { destruct (cell_dec Hh Hb) as [C|[N1 C]]; fold q in C; rewrite C; [tauto|]. fold q in N1. unfold number in N1. lia. }
  destruct (in_dec pos_eq_dec q (map fst p)) as [Hin|Hout].
  - assert (Hfr : front_cell row column h q) by (now apply Hf). destruct Hfr as (_ & Hcv & _). apply K10 in Hcv.
    apply in_map_iff in Hin as ([q' x] & Eq & Hin). cbn [fst] in Eq. subst q'. rewrite (V1 q x Hin), (Hlow q x Hin), andb_false_r, Hcv. cbn [Z.eqb]. split; [intros _; now apply Hv|congruence].
  - rewrite O1 by auto. rewrite gcell_mkboard by auto. replace (f_lt f_minus_one f_minus_half) with true by (vm_compute; reflexivity). rewrite andb_true_r.
    destruct (Z.eqb_spec (cell g q) 10) as [Hcv|Hcv].
    + split; [intros _|congruence]. apply Hi. split; auto. split; [now apply K10|]. intros z Hz Hn Hnum. apply Hout, Hf. split; auto. split; [now apply K10|]. exists z. auto.
    + split; [congruence|]. intros _ _. destruct (Z.eqb_spec (cell g q) 12); reflexivity.
Qed.
Print Assumptions C81_onboard_float.
Theorem C81_range_float : forall row column g h M N lo hi, satisfiable row column g -> proper row column g -> without_oversized row column g h ->
  length (covered_cells row column g) <= 800 -> few_kept_choices g N -> N <= 2 ^ 38 -> 1 <= M -> (Z.of_nat M < 2 ^ 53)%Z ->
  least_mines row column h lo -> most_mines row column h hi -> lo <= M ->
  exists p pu len, possibility_f64 g (f_of M) = Ok (p, pu, (lo, M, Nat.min hi (M + n_inner row column h)), len) /\
    forall bl k1 k2, refresh_matrixs g = Ok (bl, k1, k2) ->
      (forall B, In B bl -> length (vars B) <= len) /\ (bl <> [] -> exists B, In B bl /\ length (vars B) = len).
Proof.
  intros row column g h M N lo hi Hsat Hprop Hh Hc HN HN2 HM1 HM2 Hlo Hhi HM.
  rewrite (@f64_count row column g M) by (auto; apply Hsat).
  destruct (@big_both row column g h Hsat Hprop Hh N Hc HN HN2) as (sm & W & _ & Both). destruct (Both (Count M)) as [Ag _]. clear Both.
  destruct (@C81_range row column g h M lo hi Hsat Hprop Hh Hlo Hhi HM) as (p & pu & len & E & H). rewrite E in Ag. destruct Ag as (p' & pu' & -> & _). exists p', pu', len. auto.
Qed.
Print Assumptions C81_range_float.

(** ** A case: the two cells of the small block get the double nearest to 1/2 (57 explanations of 114), those of the
    oversized block (57 cells) the double nearest to 1/57, although one of them is a mine for sure. *)
Example C81_float_case : satisfiable 2 59 mixed_demo /\ proper 2 59 mixed_demo /\ without_oversized 2 59 mixed_demo mixed_rest /\
  length (covered_cells 2 59 mixed_demo) <= 800 /\ few_kept_choices mixed_demo 3 /\ ~ (forall r, r <= 2 -> n_worlds 2 59 mixed_rest r = 0) /\
  match possibility_f64 mixed_demo (f_of 2) with
  | Ok (p, pu, range, len) => map (fun e => (fst e, bits_of_b64 (snd e))) p = [(1, 57, bits_of_b64 (fdiv (f_of 1) (f_of 2))); (1, 58, bits_of_b64 (fdiv (f_of 1) (f_of 2)))] /\
      bits_of_b64 pu = bits_of_b64 (fdiv (f_of 1) (f_of 57)) /\ range = (1, 2, 58) /\ len = 57
  | _ => False
  end.
Proof.
  destruct C81_mixed as (H1 & H2 & H3 & _). split; [exact H1|]. split; [exact H2|]. split; [exact H3|].
  split; [apply Nat.leb_le; vm_compute; reflexivity|].
  split. { intros bl k1 k2 E. assert (X : match refresh_matrixs mixed_demo with Ok (bl, _, _) => (fold_right Nat.mul 1 (map (fun B => length (vars B) + 1) (filter (fun B => length (vars B) <=? 55) bl)) <=? 3) = true | _ => True end) by (vm_compute; reflexivity).
    rewrite E in X. now apply Nat.leb_le. }
  split.
  - intros Z. destruct (@C81_cal_possibility 2 59 mixed_demo mixed_rest 2 H1 H2 H3) as (_ & K & _).
    assert (F : flag_count 2 59 mixed_demo <= 2) by (apply Nat.leb_le; vm_compute; reflexivity). specialize (K F Z). clear Z.
    assert (X : match cal_possibility mixed_demo (Count 2) with Err _ => false | _ => true end = true) by (vm_compute; reflexivity). rewrite K in X. discriminate X.
  - vm_compute. repeat split.
Qed.
