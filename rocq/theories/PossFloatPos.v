(** * PossFloatPos: [cal_possibility_f] on a position (lemmas for C33). *)
From Coq Require Import ZArith Reals Lia Lra Bool List.
From Flocq Require Import Core IEEE754.BinarySingleNaN IEEE754.Binary IEEE754.Bits.
From Verif Require Import Base Spec BaseFacts LayMine Matrix Solve Utils UtilsProofs SolverSpec LinFacts MatrixProofs ChunkProofs TableProofs EnumProofs EnumBlock EnumSolve MatrixMeaning FloatTime FloatQuot FloatTrace BigNum FloatNear BigNumProofs BigBinom
  Possibility PossSpec PossProofs PossSums PossCode PossMain PossFloat PossFloatProofs PossFloatMain.
Import ListNotations.
Open Scope nat_scope.
Local Notation val := (B2R 53 1024).
#[local] Opaque Nat.pow.

(** bounds of the tables *)
Lemma filter_len {A} (f : A -> bool) l : length (filter f l) <= length l.
Proof. induction l as [|a l IH]; cbn [filter length]; [lia|]. destruct (f a); cbn [length]; lia. Qed.
Lemma n_sol_at_pow B k q : n_sol_at B k q <= 2 ^ length (vars B).
Proof. unfold n_sol_at. etransitivity; [apply count_le|]. unfold solutions. rewrite <- length_subs. apply filter_len. Qed.
Lemma subs_len {A} (l : list A) : forall s, In s (subs l) -> length s <= length l.
Proof.
  induction l as [|a l IH]; intros s Hs; cbn [subs] in Hs.
  - destruct Hs as [<-|[]]. cbn. lia.
  - cbn [length]. apply in_app_iff in Hs as [Hs|Hs]; [specialize (IH s Hs); lia|]. apply in_map_iff in Hs as (t & <- & Ht). specialize (IH t Ht). cbn [length]. lia.
Qed.
Lemma sol_len B s : In s (solutions B) -> length s <= length (vars B).
Proof. intros H. apply filter_In in H as [H _]. now apply subs_len. Qed.
Lemma window_small B w : windowed B w -> snd w <= S (length (vars B)).
Proof.
  intros (H0 & _ & _ & H1). destruct (Nat.le_gt_cases (snd w) (S (length (vars B)))) as [|H]; auto. exfalso. apply H1. unfold n_sol. rewrite count_b1. apply sumn_zero. intros s Hs.
  apply sol_len in Hs. destruct (Nat.eqb_spec (length s) (fst w + snd w - 1)); [lia|reflexivity].
Qed.

Lemma pow2_mono a b : a <= b -> 2 ^ a <= 2 ^ b. Proof. intros. apply Nat.pow_le_mono_r; lia. Qed.
Lemma tot_concat l : tot (map (fun B => length (vars B)) l) = length (concat (map vars l)).
Proof. induction l as [|B l IH]; auto. cbn [map tot concat]. rewrite app_length. cbn [tot] in *. lia. Qed.
Lemma block_some B : good_block B -> 1 <= length (vars B).
Proof.
  intros [G Hne]. destruct (eqs B) as [|e l] eqn:E; [contradiction|]. pose proof (gd_nz G) as N. inversion N as [|? ? (q & Hq & _) _]; subst. destruct (vars B); [destruct Hq|cbn; lia].
Qed.
(** ** the hypotheses of [posterior_sim] *)
Section Pos.
Variables (row column : nat) (g : board).
Hypothesis Hsat : satisfiable row column g.
Hypothesis Hprop : proper row column g.
Variables (bl : list block) (W : list (nat * nat)).
Hypothesis St : situation row column g bl W.
Let U := length (inner_cells row column g).
Let flags := flag_count row column g.
Let mn := nsum (map fst W).
Let mx := nsum (map top W).
Let ps := map pieceB (combine bl W).
Let es := map (fun B => length (vars B)) bl.
Lemma tables_small : Forall2 tab_small (map p_table ps) es.
Proof.
  unfold ps, es. rewrite map_map. pose proof (st_W St) as F. pose proof (st_small St) as H. clear - F H. induction F as [|B w bl W HB F IH]; [constructor|].
  inversion H; subst. cbn [combine map]. constructor; auto. split; [exact H2|]. cbn [pieceB p_table fst snd]. unfold tabB. apply Forall_forall. intros r Hr. apply in_map_iff in Hr as (k & <- & _). cbn [line fst snd]. apply n_sol_small.
Qed.
Lemma cells_small : Forall (fun pc => length (p_table pc) <= 56 /\ Forall (fun r => Forall (fun c => c <= 2 ^ 55) (snd r)) (p_table pc)) ps.
Proof.
  unfold ps. pose proof (st_W St) as F. pose proof (st_small St) as H. clear - F H. induction F as [|B w bl W HB F IH]; [constructor|].
  inversion H; subst. cbn [combine map]. constructor; auto. cbn [pieceB p_table fst snd]. unfold tabB. change ENUM_LIMIT with 55 in H2. split.
  - rewrite map_length, seq_length. apply window_small in HB. lia.
  - apply Forall_forall. intros r Hr. apply in_map_iff in Hr as (k & <- & _). cbn [line fst snd]. apply Forall_forall. intros c Hc. apply in_map_iff in Hc as (gr & <- & _).
    apply Nat.le_trans with (1 := n_sol_at_pow B k _). now apply pow2_mono.
Qed.
Lemma covered_len : tot es + U = length (covered_cells row column g).
Proof.
  pose proof (@parts_perm row column g bl Hprop (st_nd St) (st_front St)) as P. apply Permutation_length in P. rewrite P, app_length. unfold es, U. now rewrite tot_concat.
Qed.
Lemma blocks_len : length ps <= tot es.
Proof.
  unfold ps, es. rewrite map_length, combine_length. pose proof (st_good St) as H. assert (L : length bl <= tot (map (fun B => length (vars B)) bl)); [|lia].
  clear - H. induction H as [|B l HB F IH]; auto. cbn [map length]. apply block_some in HB. unfold tot in *. cbn [fold_right] in *. lia.
Qed.
Lemma prod_le : prod (map (fun pc => length (p_table pc)) ps) <= prod (map (fun B => S (length (vars B))) bl).
Proof.
  unfold ps. pose proof (st_W St) as F. clear - F. induction F as [|B w bl W HB F IH]; auto.
  cbn [combine map prod pieceB p_table fst snd]. unfold tabB. rewrite map_length, seq_length. apply Nat.mul_le_mono; auto. now apply window_small.
Qed.

Lemma cal_unfold_f minenum : cal_possibility_f g minenum =
  let* m := (match minenum with
             | Ratio k => let* d := usub k flags in Ok (Nat.min (Nat.max d mn) (mx + U))
             | Count m => if m <? flags then Err 17 else Ok (m - flags)
             end) in
  if Nat.min mx m <? mn then Err 3
  else let* (p, pu) := posterior_f ps U m mn (Nat.min mx m) in
       Ok (p, pu, (mn + flags, m + flags, Nat.min mx m + flags + U), biggest bl).
Proof.
  destruct St. unfold cal_possibility_f. rewrite st_refresh. cbn [bind]. fold U.
  assert (E1 : filter (fun B => ENUM_LIMIT <? length (vars B)) bl = []).
  { clear - st_small. induction st_small as [|B bl H F IH]; auto. cbn [filter]. destruct (Nat.ltb_spec ENUM_LIMIT (length (vars B))); [lia|auto]. }
  assert (E2 : filter (fun B => negb (ENUM_LIMIT <? length (vars B))) bl = bl).
  { clear - st_small. induction st_small as [|B bl H F IH]; auto. cbn [filter]. destruct (Nat.ltb_spec ENUM_LIMIT (length (vars B))); [lia|]. cbn [negb]. now rewrite IH. }
  rewrite E1, E2. cbn [map nsum fold_left]. unfold nsum at 1 2 3. cbn [fold_left]. rewrite Nat.add_0_r.
  revert st_pieces.
  destruct (mapM (fun B => let* (A, x, groups) := combine_cells (map fst (eqs B)) (vars B) in Ok (B, A, x, groups)) bl) as [sq| | |] eqn:Es; cbn [bind]; intros EP; try discriminate EP.
  rewrite EP. cbn [bind]. destruct (mins_ok st_W) as [M1 M2]. fold ps. unfold ps. rewrite M1, M2. cbn [bind]. reflexivity.
Qed.

(** the relation to the exact calculation *)
Definition grade (N : nat) : nat := 2 * N + 10 * 800.
Definition agrees (N : nat) (a : R (list (pos * frac) * frac * (nat * nat * nat) * nat)) (b : R (list (pos * binary64) * binary64 * (nat * nat * nat) * nat)) : Prop :=
  match a with
  | Ok (p, pu, range, len) => exists p' pu', b = Ok (p', pu', range, len) /\ Forall2 (erel (grade N)) p p' /\ frep (grade N) pu pu'
  | Err e => b = Err e
  | Panic => b = Panic
  | OutOfFuel => b = OutOfFuel
  end.
Lemma frep_mono M M' f x : M <= M' -> frep M f x -> frep M' f x.
Proof. intros H [A B]. split; auto. intros Hz. eapply near_mono; [exact H|auto]. Qed.
Theorem cal_possibility_sim N minenum : length (covered_cells row column g) <= 800 -> prod (map (fun B => S (length (vars B))) bl) <= N -> N <= 2 ^ 38 ->
  agrees N (cal_possibility g minenum) (cal_possibility_f g minenum).
Proof.
  intros Hc HN HN2. rewrite (cal_unfold St), cal_unfold_f. fold U flags mn mx ps.
  set (mm := match minenum with Ratio _ => _ | Count _ => _ end). destruct mm as [m| | |] eqn:Em; cbn [bind]; try reflexivity.
  destruct (Nat.ltb_spec (Nat.min mx m) mn) as [|Hm]; [reflexivity|].
  assert (Hmn : mn <= m) by lia.
  pose proof (@cal_ok row column g Hprop bl W St minenum m Em) as CO. fold flags U mn mx in CO. destruct (Nat.ltb_spec m mn); [lia|].
  rewrite (cal_unfold St) in CO. fold U flags mn mx ps in CO. unfold mm in Em. rewrite Em in CO. cbn [bind] in CO. destruct (Nat.ltb_spec (Nat.min mx m) mn); [lia|].
  pose proof covered_len as CL. pose proof blocks_len as BL. pose proof prod_le as PL.
  pose proof (@posterior_sim ps es U m mn (Nat.min mx m) tables_small cells_small ltac:(lia) ltac:(lia) ltac:(lia)) as PS. cbv zeta in PS.
  destruct (posterior ps U m mn (Nat.min mx m)) as [[p pu]| | |] eqn:EP; cbn [bind] in CO |- *; try discriminate CO.
  injection CO as -> ->. destruct (PS _ eq_refl) as ([p' pu'] & -> & F1 & F2). cbn [fst snd] in F1, F2. cbn [bind agrees].
  assert (HG : 2 * prod (map (fun pc => length (p_table pc)) ps) + 10 * 800 <= grade N) by (unfold grade; lia).
  exists p', pu'. split; [reflexivity|]. split.
  - clear - F1 HG. induction F1 as [|a b l l' [Ha Hb] F IH]; constructor; auto. split; auto. now apply (frep_mono HG).
  - apply (frep_mono HG). apply F2. exact (no_inner St m).
Qed.
End Pos.
