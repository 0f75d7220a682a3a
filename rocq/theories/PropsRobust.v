(** * PropsRobust: C80, the probabilities on contradictory positions. *)
From Verif Require Import Base Spec BaseFacts LayMine Matrix Solve Utils UtilsProofs SolverSpec LinFacts SolveProofs ChunkProofs MatrixProofs CombineProofs TableProofs EnumProofs EnumBlock EnumSolve PosProofs MatrixMeaning
  Possibility PossSpec PossProofs PossSums PossCode PossMain PropsPoss PossBoard MarkWorlds PropsOpening RobustProofs.
Open Scope nat_scope.

Lemma explained_pieces row column g bl v : front_blocks row column g bl -> explains_front row column g v ->
  exists W, Forall2 windowed bl W /\ pieces_of bl = Ok (map pieceB (combine bl W)).
Proof.
  intros Fb Hv. apply (fb_sats Fb) in Hv. destruct (pieces_ok (fb_good Fb) Hv (fb_small Fb)) as (W & HW & E). exists W. split; auto.
Qed.

(** C80. The position is any board of any content. Its numbers may contradict each other: nothing is
    required but that no number next to a covered cell has more flags around it than it says, and that
    no block has more than 55 cells. If no set of mines explains the numbers, the answer is error 1,
    whatever number of mines is asked for. *)
Theorem C80_no_explanation : forall row column g, rect row column g -> 0 < row -> small_blocks g -> not_overflagged row column g ->
  ((forall v, ~ explains_front row column g v) <-> forall spec, cal_possibility g spec = Err 1) /\
  ((forall v, ~ explains_front row column g v) <-> exists spec, cal_possibility g spec = Err 1).
Proof.
  intros row column g Hr H0 Hsm Ho. destruct (front_blocks_ok Hr H0 Hsm) as (bl & Fb).
  assert (K1 : (forall v, ~ explains_front row column g v) -> forall spec, cal_possibility g spec = Err 1).
  { intros Hno spec. rewrite (cal_split spec Fb).
    destruct (pieces_cases (fb_good Fb) (fb_nonneg Fb Ho) (fb_small Fb)) as [(W & HW & E)|[_ E]].
    - exfalso. destruct (windowed_explained Fb HW) as (v & Hv). exact (Hno v Hv).
    - rewrite E. reflexivity. }
  assert (K2 : (exists spec, cal_possibility g spec = Err 1) -> forall v, ~ explains_front row column g v).
  { intros (spec & E1) v Hv. rewrite (cal_split spec Fb) in E1. destruct (explained_pieces Fb Hv) as (W & HW & E). rewrite E in E1. cbn [bind] in E1.
    destruct spec as [m|k].
    - destruct (Nat.ltb_spec m (flag_count row column g)) as [Hm|Hm].
      + unfold tail_of in E1. destruct (mins_ok HW) as [M1 M2]. rewrite M1, M2 in E1. cbn [bind] in E1.
        destruct (Nat.ltb_spec m (flag_count row column g)); [discriminate|lia].
      + rewrite (@tail_ok row column g bl W (m - flag_count row column g) (Count m) Fb HW) in E1.
        2:{ destruct (Nat.ltb_spec m (flag_count row column g)); [lia|reflexivity]. }
        destruct (_ <? _) in E1; discriminate.
    - destruct (Nat.leb_spec (flag_count row column g) k) as [Hk|Hk].
      + erewrite (@tail_ok row column g bl W _ (Ratio k) Fb HW) in E1.
        2:{ unfold usub. destruct (Nat.leb_spec (flag_count row column g) k); [reflexivity|lia]. }
        destruct (_ <? _) in E1; discriminate.
      + unfold tail_of in E1. destruct (mins_ok HW) as [M1 M2]. rewrite M1, M2 in E1. cbn [bind] in E1. unfold usub in E1.
        destruct (Nat.leb_spec (flag_count row column g) k); [lia|discriminate]. }
  split; split; [exact K1|intros H; apply K2; exists (Count 0); apply H|intros H; exists (Count 0); apply K1, H|exact K2].
Qed.
Print Assumptions C80_no_explanation.

(** If some set of mines explains the numbers next to covered cells (the other numbers may be wrong):
    error 17 when there are more flags than mines; error 3 when every explanation needs more mines than
    that; an answer, with every border cell listed once, when some explanation does not. *)
Theorem C80_explained : forall row column g M v0, rect row column g -> 0 < row -> small_blocks g -> explains_front row column g v0 ->
  let flags := flag_count row column g in
  (M < flags -> cal_possibility g (Count M) = Err 17) /\
  (flags <= M -> (forall v k, explains_front row column g v -> front_mines row column g v k -> M < flags + k) -> cal_possibility g (Count M) = Err 3) /\
  (forall v k, explains_front row column g v -> front_mines row column g v k -> flags + k <= M ->
     exists p pu range len, cal_possibility g (Count M) = Ok (p, pu, range, len) /\ NoDup (map fst p) /\
       forall q, In q (map fst p) <-> front_cell row column g q).
Proof.
  intros row column g M v0 Hr H0 Hsm Hv0 flags. destruct (front_blocks_ok Hr H0 Hsm) as (bl & Fb).
  destruct (explained_pieces Fb Hv0) as (W & HW & E). rewrite (cal_split (Count M) Fb), E. cbn [bind].
  assert (HT : flags <= M -> (if M <? flags then Err 17 else Ok (M - flags)) = Ok (M - flags)) by (intros H; destruct (Nat.ltb_spec M flags); [lia|reflexivity]).
  split; [|split].
  - intros HM. unfold tail_of. destruct (mins_ok HW) as [M1 M2]. rewrite M1, M2. cbn [bind]. fold flags. destruct (Nat.ltb_spec M flags); [reflexivity|lia].
  - intros HM Hall. rewrite (@tail_ok row column g bl W (M - flags) (Count M) Fb HW (HT HM)). destruct (sats_least (fb_nd Fb) HW) as (v & Hv & Hc).
    apply (fb_sats Fb) in Hv. apply (front_mines_count v _ Fb) in Hc. specialize (Hall v _ Hv Hc).
    destruct (Nat.ltb_spec (M - flags) (nsum (map fst W))); [reflexivity|lia].
  - intros v k Hv Hk HM. rewrite (@tail_ok row column g bl W (M - flags) (Count M) Fb HW) by (apply HT; lia).
    apply (front_mines_count v k Fb) in Hk. apply (fb_sats Fb) in Hv. pose proof (sats_size (fb_nd Fb) HW Hv).
    destruct (Nat.ltb_spec (M - flags) (nsum (map fst W))); [lia|]. do 4 eexists. split; [reflexivity|].
    pose proof (entries_keys row column g (M - flags) (fb_good Fb) HW) as P.
    split; [eapply Permutation_NoDup; [symmetry; exact P|apply (fb_nd Fb)]|].
    intros q. rewrite <- (fb_front Fb q). split; apply Permutation_in; auto. now symmetry.
Qed.
Print Assumptions C80_explained.

(** A ratio of mines (k: that part of the cells): always an answer if at least as many as the flags. *)
Theorem C80_ratio : forall row column g k v0, rect row column g -> 0 < row -> small_blocks g -> explains_front row column g v0 ->
  flag_count row column g <= k ->
  exists p pu range len, cal_possibility g (Ratio k) = Ok (p, pu, range, len) /\ NoDup (map fst p) /\
       forall q, In q (map fst p) <-> front_cell row column g q.
Proof.
  intros row column g k v0 Hr H0 Hsm Hv0 Hk. destruct (front_blocks_ok Hr H0 Hsm) as (bl & Fb).
  destruct (explained_pieces Fb Hv0) as (W & HW & E). rewrite (cal_split (Ratio k) Fb), E. cbn [bind].
  erewrite (@tail_ok row column g bl W _ (Ratio k) Fb HW).
  2:{ unfold usub. destruct (Nat.leb_spec (flag_count row column g) k); [reflexivity|lia]. }
  assert (Hmm : nsum (map fst W) <= nsum (map top W)).
  { rewrite !nsum_sumn. clear - HW. induction HW as [|B w bl W (Hc & _) F IH]; cbn [map sumn]; auto. unfold top at 1. lia. }
  destruct (Nat.ltb_spec (Nat.min (Nat.max (k - flag_count row column g) (nsum (map fst W))) (nsum (map top W) + length (inner_cells row column g))) (nsum (map fst W))); [lia|].
  do 4 eexists. split; [reflexivity|].
  match goal with |- context [entries bl W _ ?m] => pose proof (entries_keys row column g m (fb_good Fb) HW) as P end.
  split; [eapply Permutation_NoDup; [symmetry; exact P|apply (fb_nd Fb)]|].
  intros q. rewrite <- (fb_front Fb q). split; apply Permutation_in; auto. now symmetry.
Qed.
Print Assumptions C80_ratio.

(** Hence no panic and no endless loop with a number of mines: an answer or one of three errors. *)
Theorem C80_total : forall row column g M, rect row column g -> 0 < row -> small_blocks g -> not_overflagged row column g ->
  cal_possibility g (Count M) = Err 1 \/ cal_possibility g (Count M) = Err 3 \/ cal_possibility g (Count M) = Err 17 \/
  exists p pu range len, cal_possibility g (Count M) = Ok (p, pu, range, len) /\ NoDup (map fst p) /\
       forall q, In q (map fst p) <-> front_cell row column g q.
Proof.
  intros row column g M Hr H0 Hsm Ho. destruct (front_blocks_ok Hr H0 Hsm) as (bl & Fb).
  destruct (pieces_cases (fb_good Fb) (fb_nonneg Fb Ho) (fb_small Fb)) as [(W & HW & E)|[_ E]].
  2:{ left. rewrite (cal_split (Count M) Fb), E. reflexivity. }
  right. destruct (sats_least (fb_nd Fb) HW) as (v & Hv & Hc). apply (fb_sats Fb) in Hv.
  destruct (@C80_explained row column g M v Hr H0 Hsm Hv) as (K1 & K2 & K3).
  destruct (Nat.lt_ge_cases M (flag_count row column g)) as [HM|HM]; [right; left; auto|].
  destruct (Nat.le_gt_cases (flag_count row column g + nsum (map fst W)) M) as [Hw|Hw].
  - right. right. apply (front_mines_count v _ Fb) in Hc. apply (K3 v _ Hv Hc Hw).
  - left. apply K2; auto. intros v' k Hv' Hk. apply (front_mines_count v' k Fb) in Hk. apply (fb_sats Fb) in Hv'. pose proof (sats_size (fb_nd Fb) HW Hv'). lia.
Qed.
Print Assumptions C80_total.

Lemma ok_keys row column g spec p pu range len : rect row column g -> 0 < row -> small_blocks g -> not_overflagged row column g ->
  cal_possibility g spec = Ok (p, pu, range, len) -> NoDup (map fst p) /\ forall q, In q (map fst p) <-> front_cell row column g q.
Proof.
  intros Hr H0 Hsm Ho E. destruct (front_blocks_ok Hr H0 Hsm) as (bl & Fb).
  destruct (pieces_cases (fb_good Fb) (fb_nonneg Fb Ho) (fb_small Fb)) as [(W & HW & Ep)|[_ Ep]].
  2:{ rewrite (cal_split spec Fb), Ep in E. discriminate. }
  assert (K : exists m, p = entries bl W (length (inner_cells row column g)) m).
  { rewrite (cal_split spec Fb), Ep in E. cbn [bind] in E. destruct spec as [M|k].
    - destruct (Nat.ltb_spec M (flag_count row column g)) as [Hm|Hm].
      + unfold tail_of in E. destruct (mins_ok HW) as [M1 M2]. rewrite M1, M2 in E. cbn [bind] in E. destruct (Nat.ltb_spec M (flag_count row column g)); [discriminate|lia].
      + rewrite (@tail_ok row column g bl W (M - flag_count row column g) (Count M) Fb HW) in E.
        2:{ destruct (Nat.ltb_spec M (flag_count row column g)); [lia|reflexivity]. }
        destruct (_ <? _) in E; [discriminate|]. injection E as <- _ _ _. eauto.
    - destruct (Nat.leb_spec (flag_count row column g) k) as [Hk|Hk].
      + erewrite (@tail_ok row column g bl W _ (Ratio k) Fb HW) in E.
        2:{ unfold usub. destruct (Nat.leb_spec (flag_count row column g) k); [reflexivity|lia]. }
        destruct (_ <? _) in E; [discriminate|]. injection E as <- _ _ _. eauto.
      + unfold tail_of in E. destruct (mins_ok HW) as [M1 M2]. rewrite M1, M2 in E. cbn [bind] in E. unfold usub in E.
        destruct (Nat.leb_spec (flag_count row column g) k); [lia|discriminate]. }
  destruct K as (m & ->). pose proof (entries_keys row column g m (fb_good Fb) HW) as P.
  split; [eapply Permutation_NoDup; [symmetry; exact P|apply (fb_nd Fb)]|].
  intros q. rewrite <- (fb_front Fb q). split; apply Permutation_in; auto. now symmetry.
Qed.

(** The function for the whole board: the same errors, and an answer with an entry for every cell
    whenever the other one has an answer. *)
Theorem C80_onboard : forall row column g spec, rect row column g -> 0 < row -> small_blocks g -> not_overflagged row column g ->
  (forall e, cal_possibility g spec = Err e <-> cal_possibility_onboard g spec = Err e) /\
  (forall p pu range len, cal_possibility g spec = Ok (p, pu, range, len) ->
     exists P, cal_possibility_onboard g spec = Ok (P, range) /\ rect row column P /\
       (forall q, inb row column q -> cell g q = 11%Z -> get P (fst q) (snd q) = Ok (1, 1)) /\
       (forall q f, In (q, f) p -> get P (fst q) (snd q) = Ok f) /\
       (forall q, inb row column q -> cell g q = 10%Z -> ~ front_cell row column g q -> get P (fst q) (snd q) = Ok pu) /\
       (forall q, inb row column q -> cell g q <> 10%Z -> cell g q <> 11%Z -> get P (fst q) (snd q) = Ok (0, 1))).
Proof.
  intros row column g spec Hr H0 Hsm Ho.
  assert (K : forall p pu range len, cal_possibility g spec = Ok (p, pu, range, len) ->
     exists P, cal_possibility_onboard g spec = Ok (P, range) /\ rect row column P /\
       (forall q, inb row column q -> cell g q = 11%Z -> get P (fst q) (snd q) = Ok (1, 1)) /\
       (forall q f, In (q, f) p -> get P (fst q) (snd q) = Ok f) /\
       (forall q, inb row column q -> cell g q = 10%Z -> ~ front_cell row column g q -> get P (fst q) (snd q) = Ok pu) /\
       (forall q, inb row column q -> cell g q <> 10%Z -> cell g q <> 11%Z -> get P (fst q) (snd q) = Ok (0, 1))).
  { intros p pu range len E. destruct (ok_keys Hr H0 Hsm Ho E) as [Nd Hf].
    unfold cal_possibility_onboard. rewrite (nrows_ok Hr), (ncolsR_ok Hr H0). cbn [bind]. rewrite E. cbn [bind].
    destruct (@put_ok row column p (mkboard row column None) (rect_mkboard _ _ _) Nd) as (p1 & E1 & Hp1 & V1 & O1). { intros q Hq. apply Hf in Hq. apply Hq. }
    rewrite E1. cbn [bind]. destruct (@finish_ok row column g Hr pu p1 Hp1) as (p2 & E2 & Hp2 & V2).
    match type of E2 with ?L = _ => match goal with |- context [bind ?X _] => change X with L end end. rewrite E2. cbn [bind].
    set (P := map (map (fun o : option frac => match o with Some f => f | None => (0, 1) end)) p2).
    exists P. split; [reflexivity|].
    assert (Hrect : rect row column P).
    { destruct Hp2 as [L F]. split; [unfold P; now rewrite map_length|]. rewrite Forall_forall in *. intros x Hx. apply in_map_iff in Hx as (y & <- & Hy). rewrite map_length. auto. }
    split; auto.
    assert (Eg : forall q, inb row column q -> get P (fst q) (snd q) = Ok (match gcell None p2 q with Some f => f | None => (0, 1) end)).
    { intros q Hb. refine (eq_trans (get_gok (0, 1) Hrect Hb) _). f_equal. unfold gcell, P. destruct Hb as [B1 B2]. pose proof (rect_row Hp2 B1) as Lr. destruct Hp2 as [L2 _].
      rewrite (@nth_map_lt _ _ _ p2 (fst q) [] []) by exact (eq_ind_r (fun n => fst q < n) B1 L2). rewrite (@nth_map_lt _ _ _ _ (snd q) (0, 1) None) by exact (eq_ind_r (fun n => snd q < n) B2 Lr). reflexivity. }
    assert (Out : forall q, inb row column q -> ~ front_cell row column g q -> gcell None p1 q = None).
    { intros q Hb Hq. rewrite O1 by (intros Hi; apply Hq, Hf, Hi). now rewrite gcell_mkboard by auto. }
    split; [|split; [|split]].
    - intros q Hb Hc. rewrite (Eg q Hb), (V2 q Hb). unfold final. now rewrite Hc.
    - intros q f Hin. assert (Hq : front_cell row column g q) by (apply Hf, in_map_iff; exists (q, f); auto). pose proof Hq as (Hb & Hc & _).
      rewrite (Eg q Hb), (V2 q Hb). unfold final. rewrite Hc, (V1 q f Hin). reflexivity.
    - intros q Hb Hc Hq. rewrite (Eg q Hb), (V2 q Hb), (Out q Hb Hq). unfold final. now rewrite Hc.
    - intros q Hb H1 H2. rewrite (Eg q Hb), (V2 q Hb), (Out q Hb) by (intros (_ & Hc & _); auto). unfold final.
      destruct (Z.eqb_spec (cell g q) 11); [contradiction|]. destruct (Z.eqb_spec (cell g q) 10); [contradiction|reflexivity]. }
  split; [|exact K].
  intros e. split.
  - intros E. unfold cal_possibility_onboard. rewrite (nrows_ok Hr), (ncolsR_ok Hr H0). cbn [bind]. rewrite E. reflexivity.
  - intros E. destruct (cal_possibility g spec) as [[[[p pu] range] len]|e'| |] eqn:Ec.
    + destruct (K _ _ _ _ eq_refl) as (P & EP & _). congruence.
    + unfold cal_possibility_onboard in E. rewrite (nrows_ok Hr), (ncolsR_ok Hr H0), Ec in E. cbn [bind] in E. congruence.
    + unfold cal_possibility_onboard in E. rewrite (nrows_ok Hr), (ncolsR_ok Hr H0), Ec in E. discriminate.
    + unfold cal_possibility_onboard in E. rewrite (nrows_ok Hr), (ncolsR_ok Hr H0), Ec in E. discriminate.
Qed.
Print Assumptions C80_onboard.

(** ** Cases *)
(** A wrong board whose only number next to a covered cell can be explained: 7 and 0 are wrong, the 2
    has a flag and a covered cell around it. *)
Definition wrong_demo : board := [[7; 0; 11; 2; 10]]%Z.
Example C80_case_explained : rect 1 5 wrong_demo /\ small_blocks wrong_demo /\ explains_front 1 5 wrong_demo (fun _ => true) /\
  front_mines 1 5 wrong_demo (fun _ => true) 1 /\ flag_count 1 5 wrong_demo = 1 /\ ~ satisfiable 1 5 wrong_demo /\
  cal_possibility wrong_demo (Count 0) = Err 17 /\ cal_possibility wrong_demo (Count 1) = Err 3 /\
  cal_possibility wrong_demo (Count 2) = Ok ([((0, 4), (1, 1))], (0, 0), (2, 2, 2), 1).
Proof.
  assert (Hr : rect 1 5 wrong_demo) by (split; [reflexivity|repeat constructor]).
  split; [exact Hr|]. split; [apply (@few_covered_small 1 5); auto; vm_compute; lia|].
  assert (Hn : forall n, front_number 1 5 wrong_demo n <-> n = (0, 3)).
  { intros n. split.
    - intros ([A1 A2] & Hnum & q & [B1 B2] & Hnear & Hc). destruct n as [i j], q as [a b]. cbn [fst snd] in *.
      assert (i = 0) by lia. assert (a = 0) by lia. subst i a.
      assert (b = 4). { destruct b as [|[|[|[|[|b]]]]]; try (vm_compute in Hc; discriminate Hc); [reflexivity|lia]. } subst b.
      unfold near in Hnear. cbn [fst snd] in Hnear. destruct j as [|[|[|[|[|j]]]]]; try lia; [reflexivity|].
      exfalso. unfold number in Hnum. vm_compute in Hnum. destruct Hnum. congruence.
    - intros ->. split; [split; cbn; lia|]. split; [unfold number; cbn; lia|]. exists (0, 4). split; [split; cbn; lia|]. split; [unfold near; cbn; lia|reflexivity]. }
  split. { intros n Hf. apply Hn in Hf as ->. unfold number_ok. vm_compute. reflexivity. }
  split. { exists [(0, 4)]. split; [repeat constructor; intros []|]. split; [|reflexivity]. intros q. split.
    - intros [<-|[]]. split; [split; cbn; lia|]. split; [reflexivity|]. exists (0, 3). split; [split; cbn; lia|]. split; [unfold near; cbn; lia|unfold number; cbn; lia].
    - intros ([A1 A2] & Hc & _). destruct q as [i j]. cbn [fst snd] in *. assert (i = 0) by lia. subst i. left.
      destruct j as [|[|[|[|[|j]]]]]; try (vm_compute in Hc; discriminate Hc); [reflexivity|lia]. }
  split; [reflexivity|]. split.
  { intros (_ & _ & m & Hm). destruct (Hm (0, 1)) as (_ & _ & H1); [split; cbn; lia|]. destruct (Hm (0, 2)) as (H2 & _); [split; cbn; lia|].
    specialize (H1 ltac:(unfold number; cbn; lia)). specialize (H2 eq_refl). unfold adj_count in H1. vm_compute in H1.
    destruct (m (0, 0)), (m (0, 2)); try discriminate H1; discriminate H2. }
  vm_compute. repeat split.
Qed.
(** Two numbers with the same neighbours. *)
Example C80_case_contradiction : rect 2 2 [[1; 2]; [10; 10]]%Z /\ small_blocks [[1; 2]; [10; 10]]%Z /\ not_overflagged 2 2 [[1; 2]; [10; 10]]%Z /\
  (forall v, ~ explains_front 2 2 [[1; 2]; [10; 10]]%Z v) /\ cal_possibility [[1; 2]; [10; 10]]%Z (Count 1) = Err 1.
Proof.
  set (g := [[1; 2]; [10; 10]]%Z).
  assert (Hr : rect 2 2 g) by (split; [reflexivity|repeat constructor]).
  assert (Hsm : small_blocks g) by (apply (@few_covered_small 2 2); auto; vm_compute; lia).
  assert (Ho : not_overflagged 2 2 g).
  { intros [i j] ([A1 A2] & Hnum & _). cbn [fst snd] in *. assert (E : adj_count 2 2 (flaggedb g) (i, j) = 0).
    { destruct i as [|[|i]], j as [|[|j]]; try lia; reflexivity. }
    rewrite E. destruct Hnum. lia. }
  assert (Hex : cal_possibility g (Count 1) = Err 1) by (vm_compute; reflexivity).
  split; [exact Hr|]. split; [exact Hsm|]. split; [exact Ho|]. split; [|exact Hex].
  apply (@C80_no_explanation 2 2 g Hr ltac:(lia) Hsm Ho). exists (Count 1). exact Hex.
Qed.

(** Refutation without the hypothesis on the flags: a 0 with a flag next to it. The number of mines left
    is -1, its conversion to usize wraps and adding 1 overflows: a checked build panics. *)
Theorem C80_overflagged_refuted : exists g, rect 2 2 g /\ small_blocks g /\ forall M, cal_possibility g (Count M) = Panic.
Proof.
  exists [[0; 11]; [10; 10]]%Z. assert (Hr : rect 2 2 [[0; 11]; [10; 10]]%Z) by (split; [reflexivity|repeat constructor]).
  split; [exact Hr|]. split; [apply (@few_covered_small 2 2); auto; vm_compute; lia|]. intros M. vm_compute. reflexivity.
Qed.
Print Assumptions C80_overflagged_refuted.
