(** * RobustFloat: C80 and C65 in f64 arithmetic. *)
From Coq Require Import ZArith Reals Lia Lra Bool List.
From Flocq Require Import Core IEEE754.BinarySingleNaN IEEE754.Binary IEEE754.Bits.
From Verif Require Import Base Spec BaseFacts LayMine Matrix Solve Utils UtilsProofs SolverSpec MatrixProofs LinFacts ChunkProofs CombineProofs TableProofs EnumProofs EnumBlock EnumSolve SolveProofs PosProofs MatrixMeaning FloatTime FloatQuot FloatTrace BigNum FloatNear BigNumProofs BigBinom PropsBigNum
  Possibility PossSpec PossProofs PossSums PossCode PossMain PropsPoss PossBoard PropsOpening PossFloat PossFloatProofs PossFloatMain PossFloatPos PropsPossFloat RobustProofs PropsRobust OpenTotal.
Import ListNotations.
Open Scope nat_scope.
Local Notation val := (B2R 53 1024).
#[local] Opaque Nat.pow.

Section Pos.
Variables (row column : nat) (g : board).
Hypothesis Hprop : proper row column g.
Variables (bl : list block) (W : list (nat * nat)).
Hypothesis Fb : front_blocks row column g bl.
Hypothesis HW : Forall2 windowed bl W.
Let U := length (inner_cells row column g).
Let flags := flag_count row column g.
Let mn := nsum (map fst W).
Let mx := nsum (map top W).
Let ps := map pieceB (combine bl W).
Let es := map (fun B => length (vars B)) bl.
Lemma tables_small' : Forall2 tab_small (map p_table ps) es.
Proof.
  unfold ps, es. rewrite map_map. pose proof HW as F. pose proof (fb_small Fb) as H. clear - F H. induction F as [|B w bl W HB F IH]; [constructor|].
  inversion H; subst. cbn [combine map]. constructor; auto. split; [exact H2|]. cbn [pieceB p_table fst snd]. unfold tabB. apply Forall_forall. intros r Hr. apply in_map_iff in Hr as (k & <- & _). cbn [line fst snd]. apply n_sol_small.
Qed.
Lemma cells_small' : Forall (fun pc => length (p_table pc) <= 56 /\ Forall (fun r => Forall (fun c => c <= 2 ^ 55) (snd r)) (p_table pc)) ps.
Proof.
  unfold ps. pose proof HW as F. pose proof (fb_small Fb) as H. clear - F H. induction F as [|B w bl W HB F IH]; [constructor|].
  inversion H; subst. cbn [combine map]. constructor; auto. cbn [pieceB p_table fst snd]. unfold tabB. change ENUM_LIMIT with 55 in H2. split.
  - rewrite map_length, seq_length. apply window_small in HB. lia.
  - apply Forall_forall. intros r Hr. apply in_map_iff in Hr as (k & <- & _). cbn [line fst snd]. apply Forall_forall. intros c Hc. apply in_map_iff in Hc as (gr & <- & _).
    apply Nat.le_trans with (1 := n_sol_at_pow B k _). now apply pow2_mono.
Qed.
Lemma covered_len' : tot es + U = length (covered_cells row column g).
Proof.
  pose proof (@parts_perm row column g bl Hprop (fb_nd Fb) (fb_front Fb)) as P. apply Permutation_length in P. rewrite P, app_length. unfold es, U. now rewrite tot_concat.
Qed.
Lemma blocks_len' : length ps <= tot es.
Proof.
  unfold ps, es. rewrite map_length, combine_length. pose proof (fb_good Fb) as H. assert (L : length bl <= tot (map (fun B => length (vars B)) bl)); [|lia].
  clear - H. induction H as [|B l HB F IH]; auto. cbn [map length]. apply block_some in HB. unfold tot in *. cbn [fold_right] in *. lia.
Qed.
Lemma prod_le' : prod (map (fun pc => length (p_table pc)) ps) <= prod (map (fun B => S (length (vars B))) bl).
Proof.
  unfold ps. pose proof HW as F. clear - F. induction F as [|B w bl W HB F IH]; auto.
  cbn [combine map prod pieceB p_table fst snd]. unfold tabB. rewrite map_length, seq_length. apply Nat.mul_le_mono; auto. now apply window_small.
Qed.
(** the rest of the function in f64 *)
Definition tail_f (spec : mine_spec) (ps : list piece) : R (list (pos * binary64) * binary64 * (nat * nat * nat) * nat) :=
  let* mins := mapM (fun pc => list_min (t_mines (p_table pc))) ps in
  let* maxs := mapM (fun pc => list_max (t_mines (p_table pc))) ps in
  let* minenum := (match spec with
                   | Ratio mn => let* d := usub mn flags in Ok (Nat.min (Nat.max d (nsum mins)) (nsum maxs + U))
                   | Count m => if m <? flags then Err 17 else Ok (m - flags)
                   end) in
  let max_minenum := Nat.min (nsum maxs) minenum in
  if max_minenum <? nsum mins then Err 3
  else
    let* (p, pu) := posterior_f ps U minenum (nsum mins) max_minenum in
    Ok (p, pu, (nsum mins + flags, minenum + flags, max_minenum + flags + U), biggest bl).
Lemma tails_agree N spec : length (covered_cells row column g) <= 800 -> prod (map (fun B => S (length (vars B))) bl) <= N -> N <= 2 ^ 38 ->
  agrees N (tail_of row column g bl spec ps) (tail_f spec ps).
Proof.
  intros Hc HN HN2. unfold tail_of, tail_f. fold U flags. destruct (mins_ok HW) as [M1 M2]. fold ps in M1, M2. rewrite M1, M2. cbn [bind]. fold mn mx.
  destruct (match spec with Ratio _ => _ | Count _ => _ end) as [m| | |] eqn:Em; cbn [bind]; try reflexivity.
  destruct (Nat.ltb_spec (Nat.min mx m) mn) as [|Hm]; [reflexivity|].
  pose proof (@posterior_ok bl W U m HW (fb_good Fb)) as PO. cbv zeta in PO. fold mn mx ps in PO. specialize (PO Hm).
  pose proof covered_len' as CL. pose proof blocks_len' as BL. pose proof prod_le' as PL.
  pose proof (@posterior_sim ps es U m mn (Nat.min mx m) tables_small' cells_small' ltac:(lia) ltac:(lia) ltac:(lia)) as PS. cbv zeta in PS.
  rewrite PO in PS |- *. destruct (PS _ eq_refl) as ([p' pu'] & -> & F1 & F2). cbn [fst snd] in F1, F2. cbn [bind agrees].
  assert (HG : 2 * prod (map (fun pc => length (p_table pc)) ps) + 10 * 800 <= grade N) by (unfold grade; lia).
  exists p', pu'. split; [reflexivity|]. split.
  - clear - F1 HG. induction F1 as [|a b l l' [Ha Hb] F IH]; constructor; auto. split; auto. now apply (frep_mono HG).
  - apply (frep_mono HG). apply F2. intros HU. pose proof (inner_le bl W U m) as L. rewrite HU, Nat.mul_0_r in L. rewrite HU. lia.
Qed.
End Pos.

Lemma cal_split_f row column g bl spec : front_blocks row column g bl -> cal_possibility_f g spec = let* ps := pieces_of bl in tail_f row column g bl spec ps.
Proof.
  intros [E _ _ _ _ _ Hs]. unfold cal_possibility_f. rewrite E. cbn [bind].
  assert (E1 : filter (fun B => ENUM_LIMIT <? length (vars B)) bl = []).
  { clear - Hs. induction Hs as [|B bl H F IH]; auto. cbn [filter]. destruct (Nat.ltb_spec ENUM_LIMIT (length (vars B))); [lia|auto]. }
  assert (E2 : filter (fun B => negb (ENUM_LIMIT <? length (vars B))) bl = bl).
  { clear - Hs. induction Hs as [|B bl H F IH]; auto. cbn [filter]. destruct (Nat.ltb_spec ENUM_LIMIT (length (vars B))); [lia|]. cbn [negb]. now rewrite IH. }
  rewrite E1, E2. change (nsum (map (fun B => length (vars B)) [])) with 0. rewrite Nat.add_0_r. unfold pieces_of, tail_f, biggest.
  destruct (mapM _ bl) as [sq| | |]; cbn [bind]; reflexivity.
Qed.

(** The f64 function and the exact one agree on every position that is not overflagged. *)
Theorem robust_agrees row column g N spec : rect row column g -> 0 < row -> proper row column g -> small_blocks g -> not_overflagged row column g ->
  length (covered_cells row column g) <= 800 -> few_choices g N -> N <= 2 ^ 38 ->
  agrees N (cal_possibility g spec) (cal_possibility_f g spec).
Proof.
  intros Hr H0 Hprop Hsm Ho Hc HN HN2. destruct (front_blocks_ok Hr H0 Hsm) as (bl & Fb).
  rewrite (cal_split spec Fb), (cal_split_f spec Fb).
  destruct (pieces_cases (fb_good Fb) (fb_nonneg Fb Ho) (fb_small Fb)) as [(W & HW & E)|[_ E]]; rewrite E; cbn [bind]; [|reflexivity].
  apply tails_agree; auto. rewrite prod_fold. apply (HN _ _ _ (fb_refresh Fb)).
Qed.

(** C80 in f64 arithmetic *)
Theorem C80_float_total : forall row column g M N, rect row column g -> 0 < row -> proper row column g -> small_blocks g -> not_overflagged row column g ->
  length (covered_cells row column g) <= 800 -> few_choices g N -> N <= 2 ^ 38 -> 1 <= M -> (Z.of_nat M < 2 ^ 53)%Z ->
  ((forall v, ~ explains_front row column g v) <-> possibility_f64 g (f_of M) = Err 1) /\
  ((exists v, explains_front row column g v) -> M < flag_count row column g -> possibility_f64 g (f_of M) = Err 17) /\
  ((exists v, explains_front row column g v) -> flag_count row column g <= M ->
     (forall v k, explains_front row column g v -> front_mines row column g v k -> M < flag_count row column g + k) -> possibility_f64 g (f_of M) = Err 3) /\
  (forall v k, explains_front row column g v -> front_mines row column g v k -> flag_count row column g + k <= M ->
     exists p pu range len, possibility_f64 g (f_of M) = Ok (p, pu, range, len) /\ NoDup (map fst p) /\
       (forall q, In q (map fst p) <-> front_cell row column g q) /\
       exists p0 pu0, cal_possibility g (Count M) = Ok (p0, pu0, range, len) /\
         Forall2 (fun a b => fst a = fst b /\ f_prob N (snd b) (fst (snd a)) (snd (snd a))) p0 p /\ f_prob N pu (fst pu0) (snd pu0)).
Proof.
  intros row column g M N Hr H0 Hprop Hsm Ho Hc HN HN2 HM1 HM2. rewrite (@f64_count row column g M) by auto.
  pose proof (@robust_agrees row column g N (Count M) Hr H0 Hprop Hsm Ho Hc HN HN2) as Ag.
  destruct (C80_no_explanation Hr H0 Hsm Ho) as [K1 K2].
  split; [split|split; [|split]].
  - intros H. rewrite (proj1 K1 H) in Ag. exact Ag.
  - intros E. apply K2. exists (Count M). rewrite E in Ag. destruct (cal_possibility g (Count M)) as [[[[? ?] ?] ?]| | |]; cbn [agrees] in Ag; try discriminate Ag.
    + destruct Ag as (? & ? & X & _). discriminate X.
    + congruence.
  - intros (v & Hv) HM. destruct (@C80_explained row column g M v Hr H0 Hsm Hv) as (E & _ & _). rewrite (E HM) in Ag. exact Ag.
  - intros (v & Hv) HM Hall. destruct (@C80_explained row column g M v Hr H0 Hsm Hv) as (_ & E & _). rewrite (E HM Hall) in Ag. exact Ag.
  - intros v k Hv Hk HM. destruct (@C80_explained row column g M v Hr H0 Hsm Hv) as (_ & _ & E). destruct (E v k Hv Hk HM) as (p & pu & range & len & E1 & Nd & Hf).
    rewrite E1 in Ag. destruct Ag as (p' & pu' & E2 & F & Fu). destruct (ok_le Hr H0 Hsm Ho E1) as [L1 L2].
    assert (Ef : map fst p' = map fst p) by (clear - F; induction F as [|a b l l' [Ha _] F IH]; cbn [map]; congruence).
    exists p', pu', range, len. split; [exact E2|]. rewrite Ef. split; auto. split; auto. exists p, pu. split; auto. split.
    + clear - F L2 HN2. induction F as [|[q f] b l l' [Ha Hb] F IH]; constructor.
      * split; auto. cbn [fst snd] in *. specialize (L2 q f (or_introl eq_refl)). destruct f as [fa fn]. cbn [fst snd] in *. apply (@frep_prob N fa fn (snd b) HN2); [exact Hb|intros X; clear - L2 X; lia].
      * apply IH. intros. apply (L2 q0). now right.
    + destruct pu as [ua un]. cbn [fst snd] in *. apply (@frep_prob N ua un pu' HN2); [exact Fu|intros X; clear - L1 X; lia].
Qed.
Print Assumptions C80_float_total.

(** The hypotheses hold of the wrong board of C80; f64 answers 1.0 for its covered cell and NaN for the
    (absent) inner cells, and the two errors below it. *)
Example C80_float_case : proper 1 5 wrong_demo /\ not_overflagged 1 5 wrong_demo /\ length (covered_cells 1 5 wrong_demo) <= 800 /\ few_choices wrong_demo 2 /\
  possibility_f64 wrong_demo (f_of 1) = Err 3 /\
  match possibility_f64 wrong_demo (f_of 2) with
  | Ok (p, pu, range, len) => map (fun e => (fst e, bits_of_b64 (snd e))) p = [((0, 4), bits_of_b64 f_one)] /\
      is_nan 53 1024 pu = true /\ range = (2, 2, 2) /\ len = 1
  | _ => False
  end.
Proof.
  split. { intros [i j] [A1 A2]. cbn [fst snd] in *. assert (i = 0) by lia. subst i. destruct j as [|[|[|[|[|j]]]]]; try lia; vm_compute; discriminate. }
  split. { intros [i j] ([A1 A2] & Hnum & q & [B1 B2] & Hnear & Hc). destruct q as [a b]. cbn [fst snd] in *. assert (i = 0) by lia. assert (a = 0) by lia. subst i a.
    assert (b = 4). { destruct b as [|[|[|[|[|b]]]]]; try (vm_compute in Hc; discriminate Hc); [reflexivity|lia]. } subst b.
    unfold Spec.near in Hnear. cbn [fst snd] in Hnear. destruct j as [|[|[|[|[|j]]]]]; try lia; [vm_compute; discriminate|].
    exfalso. unfold number in Hnum. vm_compute in Hnum. destruct Hnum. congruence. }
  split. { replace (length (covered_cells 1 5 wrong_demo)) with 1 by (vm_compute; reflexivity). lia. }
  split. { intros bl k1 k2 E. assert (X : match refresh_matrixs wrong_demo with Ok (bl, _, _) => (fold_right Nat.mul 1 (map (fun B => length (vars B) + 1) bl) <=? 2) = true | _ => True end) by (vm_compute; reflexivity).
    rewrite E in X. now apply Nat.leb_le. }
  split; [vm_compute; reflexivity|]. vm_compute. repeat split.
Qed.
