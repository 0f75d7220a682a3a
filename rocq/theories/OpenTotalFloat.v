(** * OpenTotalFloat: C80 (whole board) and C65 (every position) in f64 arithmetic. *)
From Coq Require Import ZArith Reals Lia Lra Bool List.
From Flocq Require Import Core IEEE754.BinarySingleNaN IEEE754.Binary IEEE754.Bits.
From Verif Require Import Base Spec BaseFacts LayMine Matrix Solve Utils UtilsProofs SolverSpec MatrixProofs LinFacts ChunkProofs CombineProofs TableProofs EnumProofs EnumBlock EnumSolve SolveProofs PosProofs MatrixMeaning FloatTime FloatQuot FloatTrace BigNum FloatNear BigNumProofs BigBinom PropsBigNum
  Possibility PossSpec PossProofs PossSums PossCode PossMain PropsPoss PossBoard MarkWorlds PropsOpening PossFloat PossFloatProofs PossFloatMain PossFloatPos PropsPossFloat OpenFloat PropsOpenFloat RobustProofs PropsRobust OpenTotal RobustFloat.
Import ListNotations.
Open Scope nat_scope.
Local Notation val := (B2R 53 1024).
Local Notation Real := Rdefinitions.R.
#[local] Opaque Nat.pow.

Lemma f_prob_one N : f_prob N f_one 1 1.
Proof.
  destruct one_ok as [V F]. split; [|lia]. intros _. split; auto. rewrite V. cbn [INR]. unfold Rdiv. rewrite Rinv_1, !Rmult_1_l, Rminus_diag_eq, Rabs_R0 by reflexivity.
  apply Rmult_le_pos; [apply pos_INR|apply bpow_ge_0].
Qed.
Lemma f_prob_zero N : f_prob N f_zero 0 1.
Proof.
  split; [|lia]. intros _. split; [reflexivity|]. change (val f_zero) with 0%R. cbn [INR]. unfold Rdiv. rewrite !Rmult_0_l, Rminus_0_r, Rabs_R0. lra.
Qed.

(** The whole board: the same errors, and on every cell the f64 value of the exact fraction. *)
Theorem C80_onboard_float : forall row column g M N, rect row column g -> 0 < row -> proper row column g -> small_blocks g -> not_overflagged row column g ->
  length (covered_cells row column g) <= 800 -> few_choices g N -> N <= 2 ^ 38 -> 1 <= M -> (Z.of_nat M < 2 ^ 53)%Z ->
  (forall e, possibility_onboard_f64 g (f_of M) = Err e <-> cal_possibility_onboard g (Count M) = Err e) /\
  (forall P range, cal_possibility_onboard g (Count M) = Ok (P, range) ->
     exists P', possibility_onboard_f64 g (f_of M) = Ok (P', range) /\ rect row column P' /\
       forall i j, inb row column (i, j) -> exists a n x, get P i j = Ok (a, n) /\ get P' i j = Ok x /\ a <= n /\ f_prob N x a n /\
         (cell g (i, j) = 11%Z -> x = f_one) /\ (cell g (i, j) <> 11%Z -> cell g (i, j) <> 10%Z -> x = f_zero)).
Proof.
  intros row column g M N Hr H0 Hprop Hsm Ho Hc HN HN2 HM1 HM2.
  pose proof (@robust_agrees row column g N (Count M) Hr H0 Hprop Hsm Ho Hc HN HN2) as Ag.
  destruct (@C80_onboard row column g (Count M) Hr H0 Hsm Ho) as [KE KO].
  assert (Ef : forall e, cal_possibility_f g (Count M) = Err e -> possibility_onboard_f64 g (f_of M) = Err e).
  { intros e E. unfold possibility_onboard_f64. rewrite (ncolsR_ok Hr H0). cbn [bind]. rewrite C33_parameter by auto. unfold cal_possibility_onboard_f.
    rewrite (nrows_ok Hr), (ncolsR_ok Hr H0). cbn [bind]. rewrite E. reflexivity. }
  assert (K : forall P range, cal_possibility_onboard g (Count M) = Ok (P, range) ->
     exists P', possibility_onboard_f64 g (f_of M) = Ok (P', range) /\ rect row column P' /\
       forall i j, inb row column (i, j) -> exists a n x, get P i j = Ok (a, n) /\ get P' i j = Ok x /\ a <= n /\ f_prob N x a n /\
         (cell g (i, j) = 11%Z -> x = f_one) /\ (cell g (i, j) <> 11%Z -> cell g (i, j) <> 10%Z -> x = f_zero)).
  { intros P range EP.
    destruct (@C80_total row column g M Hr H0 Hsm Ho) as [E|[E|[E|(p0 & pu0 & range0 & len0 & E0 & Nd & Hf)]]]; try (apply KE in E; congruence).
    destruct (KO _ _ _ _ E0) as (P0 & EP0 & HP0 & K1 & K2 & K3 & K4). assert (X : Ok (P0, range0) = Ok (P, range)) by congruence. injection X as -> ->.
    rewrite E0 in Ag. cbn [agrees] in Ag. destruct Ag as (p & pu & E & F & Fu). destruct (ok_le Hr H0 Hsm Ho E0) as [L1 L2].
    assert (Em : map fst p = map fst p0) by (clear - F; induction F as [|a b l l' [Ha _] F IH]; cbn [map]; congruence).
    assert (Hlow : forall q x, In (q, x) p -> f_lt x f_minus_half = false /\ exists a n, In (q, (a, n)) p0 /\ f_prob N x a n).
    { clear - F L2 HN2. induction F as [|[q1 [a b]] [q2 y] l l' [Ha Hb] F IH]; [intros q x []|]. cbn [fst snd] in Ha, Hb. subst q2. intros q x [Eq|Hin].
      - injection Eq as <- <-. specialize (L2 q1 (a, b) (or_introl eq_refl)). cbn [fst snd] in L2. split; [apply (@prob_not_low N y a b); auto; intros Z; clear - L2 Z; lia|].
        exists a, b. split; [now left|]. apply (@frep_prob N a b y HN2 Hb). intros Z; clear - L2 Z; lia.
      - destruct (IH (fun q f H => L2 q f (or_intror H)) q x Hin) as (H1 & a' & n' & H2 & H3). split; auto. exists a', n'. split; [now right|auto]. }
    unfold possibility_onboard_f64. rewrite (ncolsR_ok Hr H0). cbn [bind]. rewrite C33_parameter by auto. unfold cal_possibility_onboard_f.
    rewrite (nrows_ok Hr), (ncolsR_ok Hr H0). cbn [bind]. rewrite E. cbn [bind].
    assert (Nd' : NoDup (map fst p)) by (rewrite Em; exact Nd).
    destruct (@put_ok_f row column p (mkboard row column f_minus_one) (rect_mkboard _ _ _) Nd') as (p1 & E1 & Hp1 & V1 & O1). { intros q Hq. rewrite Em in Hq. apply Hf in Hq. apply Hq. }
    rewrite E1. cbn [bind]. destruct (@finish_ok_f row column g Hr pu (grid row column) p1 Hp1) as (p2 & E2 & Hp2 & V2 & _); [apply NoDup_positions|intros q Hq; now apply in_positions|].
    match goal with |- context [bind ?X _] => change X with (foldM (finish_step g pu) (grid row column) p1) end. rewrite E2. cbn [bind].
    exists p2. split; [reflexivity|]. split; auto. intros i j Hb. set (q := (i, j)) in *.
    assert (Eg : get p2 i j = Ok (gcell f_zero p2 q)) by exact (get_gok f_zero Hp2 Hb).
    assert (Low : f_lt f_minus_one f_minus_half = true) by (vm_compute; reflexivity).
    destruct (Z.eq_dec (cell g q) 11) as [E11|N11].
    { exists 1, 1, f_one. split; [exact (K1 q Hb E11)|]. rewrite Eg, V2 by (now apply in_positions). unfold final_f. rewrite E11. cbn [Z.eqb].
      split; [reflexivity|]. split; [lia|]. split; [apply f_prob_one|]. split; [auto|congruence]. }
    destruct (in_dec pos_eq_dec q (map fst p)) as [Hin|Hout].
    - assert (Hfr : front_cell row column g q) by (apply Hf; rewrite <- Em; exact Hin). destruct Hfr as (_ & Hcv & _).
      apply in_map_iff in Hin as ([q' x] & Eq & Hin). cbn [fst] in Eq. subst q'. destruct (Hlow q x Hin) as (Hl & a & n & Hin0 & Hpr).
      exists a, n, x. split; [exact (K2 q (a, n) Hin0)|]. rewrite Eg, V2 by (now apply in_positions). unfold final_f. rewrite (V1 q x Hin), Hl, andb_false_r, Hcv. cbn [Z.eqb].
      split; [reflexivity|]. split; [exact (L2 _ _ Hin0)|]. split; [exact Hpr|]. split; congruence.
    - assert (Hnf : ~ front_cell row column g q) by (intros Hfr; apply Hout; rewrite Em; now apply Hf).
      assert (V : gcell f_zero p2 q = final_f g pu q f_minus_one) by (rewrite V2 by (now apply in_positions); rewrite O1 by auto; now rewrite gcell_mkboard by auto).
      unfold final_f in V. rewrite Low, andb_true_r in V. destruct (Z.eqb_spec (cell g q) 11); [contradiction|].
      destruct (Z.eqb_spec (cell g q) 10) as [E10|N10].
      + exists (fst pu0), (snd pu0), pu. split; [rewrite <- surjective_pairing; exact (K3 q Hb E10 Hnf)|]. rewrite Eg, V. split; [reflexivity|]. split; [exact L1|].
        split; [|split; congruence]. destruct pu0 as [ua un]. cbn [fst snd] in *. apply (@frep_prob N ua un pu HN2); [exact Fu|intros Z; clear - L1 Z; lia].
      + exists 0, 1, f_zero. split; [exact (K4 q Hb N10 N11)|]. rewrite Eg, V. split; [destruct (cell g q =? 12)%Z; reflexivity|]. split; [lia|]. split; [apply f_prob_zero|]. split; [congruence|reflexivity]. }
  split; [|exact K]. intros e. split.
  - intros E. destruct (@C80_total row column g M Hr H0 Hsm Ho) as [X|[X|[X|(p0 & pu0 & range0 & len0 & E0 & _)]]].
    1,2,3: pose proof X as Y; rewrite X in Ag; cbn [agrees] in Ag; apply Ef in Ag; apply KE in Y; congruence.
    destruct (KO _ _ _ _ E0) as (P0 & EP0 & _). destruct (K _ _ EP0) as (P' & EP' & _). congruence.
  - intros E. apply KE in E. rewrite E in Ag. cbn [agrees] in Ag. now apply Ef.
Qed.
Print Assumptions C80_onboard_float.

(** [x] is the fraction a / b with an absolute error of at most [k] times the error of one probability
    (twice); NaN for 0/0 *)
Definition frac_near (N k : nat) (a b : nat) (x : binary64) : Prop :=
  (b <> 0 -> is_finite 53 1024 x = true /\ (Rabs (val x - INR a / INR b) <= INR k * (2 * (INR (N + 4 * 1000) * bpow radix2 (-50))))%R) /\
  (b = 0 -> is_nan 53 1024 x = true).
Lemma frac_mono N k k' a b x : k <= k' -> frac_near N k a b x -> frac_near N k' a b x.
Proof.
  intros Hk [H1 H2]. split; auto. intros Hb. destruct (H1 Hb) as [F E]. split; auto. apply Rle_trans with (1 := E). apply Rmult_le_compat_r; [|now apply le_INR].
  apply Rmult_le_pos; [lra|]. apply Rmult_le_pos; [apply pos_INR|apply bpow_ge_0].
Qed.
Lemma nan_mul_l x y : is_nan 53 1024 x = true -> is_nan 53 1024 (fmul x y) = true.
Proof. destruct x; try discriminate. intros _. destruct y; reflexivity. Qed.
Lemma nan_mul_r x y : is_nan 53 1024 y = true -> is_nan 53 1024 (fmul x y) = true.
Proof. destruct y; try discriminate. intros _. destruct x; reflexivity. Qed.
Lemma nan_sub_r x y : is_nan 53 1024 y = true -> is_nan 53 1024 (fsub x y) = true.
Proof. destruct y; try discriminate. intros _. destruct x; reflexivity. Qed.
Lemma ratio_01 a b : a <= b -> b <> 0 -> (0 <= INR a / INR b <= 1)%R.
Proof.
  intros H Hb. assert (B : (0 < INR b)%R) by (apply lt_0_INR; lia). apply le_INR in H. assert (A := pos_INR a). split.
  - apply Rmult_le_pos; auto. left. now apply Rinv_0_lt_compat.
  - apply Rmult_le_reg_r with (INR b); auto. unfold Rdiv. rewrite Rmult_assoc, Rinv_l by lra. lra.
Qed.
Lemma frac_step N k a b x fa fn f : N <= 2 ^ 38 -> k <= 9 -> a <= b -> fa <= fn -> frac_near N k a b x -> f_prob N f fa fn ->
  frac_near N (S k) (a * (fn - fa)) (b * fn) (fmul x (fsub f_one f)).
Proof.
  intros HN Hk Hab Hf [X1 X2] [F1 F2]. split.
  - intros Hz. assert (Hb : b <> 0) by (intros ->; auto). assert (Hn : fn <> 0) by (intros ->; rewrite Nat.mul_0_r in Hz; auto).
    destruct (X1 Hb) as [Fx Ex]. destruct (F1 Hn) as [Ff Ef].
    destruct (@step_err N k (INR a / INR b) (INR fa / INR fn) x f HN (ratio_01 Hab Hb) (ratio_01 Hf Hn) Fx Ex Hk Ff Ef) as [G1 G2]. split; auto.
    replace (INR (a * (fn - fa)) / INR (b * fn))%R with (INR a / INR b * (1 - INR fa / INR fn))%R; [exact G2|].
    rewrite !mult_INR, minus_INR by exact Hf. field. split; apply not_0_INR; auto.
  - intros Hz. apply Nat.eq_mul_0 in Hz as [Hz|Hz]; [now apply nan_mul_l, X2|]. now apply nan_mul_r, nan_sub_r, F2.
Qed.

Section Cell.
Variables (row column : nat) (g : board) (M N : nat) (c : pos).
Hypothesis Hr : rect row column g.
Hypothesis H0 : 0 < row.
Hypothesis Ho : not_overflagged row column g.
Hypothesis Hvals : forall q, inb row column q -> (0 <= cell g q <= 12)%Z.
Hypothesis Hcov : length (covered_cells row column g) <= 800.
Hypothesis Hsmall : forall h, rect row column h -> (forall q, inb row column q -> cell h q = cell g q \/ cell g q = 10%Z /\ cell h q = 12%Z /\ Spec.near c q) -> small_blocks h /\ few_choices h N.
Hypothesis HN : N <= 2 ^ 38.
Hypothesis HM1 : 1 <= M.
Hypothesis HM2 : (Z.of_nat M < 2 ^ 53)%Z.
Let Z0 := filter (nearb c) (positions row column).

Lemma none_stays_f l : forall h, foldM (op_step_f g (f_of M) c) l (None, h) = Ok (None, h).
Proof. induction l as [|[i j] l IH]; intros h; cbn [foldM]; auto. cbn [op_step_f bind]. apply IH. Qed.
Lemma loop_sim todo : forall L h a b x k, incl todo Z0 -> incl L Z0 -> NoDup todo -> (forall q, In q todo -> ~ In q L) -> marked row column g L h -> a <= b ->
  k + length todo <= 9 -> frac_near N k a b x ->
  exists st st' h' h2, foldM (op_body g M c) todo (Some (a, b), h) = Ok (st, h') /\ foldM (op_step_f g (f_of M) c) todo (Some x, h) = Ok (st', h2) /\
    match st, st' with None, None => True | Some (a', b'), Some x' => frac_near N 9 a' b' x' | _, _ => False end.
Proof.
  assert (Hvals' : forall q, inb row column q -> (cell g q <= 12)%Z) by (intros q Hq; apply Hvals, Hq).
  assert (Hsmall' : forall h, rect row column h -> (forall q, inb row column q -> cell h q = cell g q \/ cell g q = 10%Z /\ cell h q = 12%Z /\ Spec.near c q) -> small_blocks h) by (intros h A B; apply Hsmall; auto).
  induction todo as [|q todo IH]; intros L h a b x k Hinc HL Nd Hdis Hm Hab Hk Hx.
  - exists (Some (a, b)), (Some x), h, h. split; [reflexivity|]. split; [reflexivity|]. apply (@frac_mono N k 9); auto. cbn [length] in Hk. lia.
  - inversion Nd as [|? ? Hn Nd']; subst. pose proof (Hinc q (or_introl eq_refl)) as Hq. apply (@in_Z0 row column g M c) in Hq as [Hb Hnear].
    pose proof Hm as (Hrh & H1 & H2). pose proof (Hvals Hb) as Hle.
    assert (Hqg : cell h q = cell g q) by (apply H2, Hdis; now left).
    assert (Hinc' : incl todo Z0) by (intros p Hp; apply Hinc; now right). cbn [length] in Hk.
    assert (IHt : exists st st' h' h2, foldM (op_body g M c) todo (Some (a, b), h) = Ok (st, h') /\ foldM (op_step_f g (f_of M) c) todo (Some x, h) = Ok (st', h2) /\
       match st, st' with None, None => True | Some (a', b'), Some x' => frac_near N 9 a' b' x' | _, _ => False end).
    { apply (IH L h a b x k); auto; [intros p Hp; apply Hdis; now right|lia]. }
    destruct q as [i j]. cbn [foldM op_body op_step_f fst snd]. rewrite (get_ok Hr Hb). cbn [bind]. rewrite <- Hqg.
    destruct (((cell h (i, j) <? 10)%Z && posb (i, j) c) || (cell h (i, j) =? 11)%Z) eqn:Ef.
    { cbn [bind]. rewrite none_stays, none_stays_f. exists None, None, h, h. auto. }
    destruct ((cell h (i, j) =? 12)%Z || (cell h (i, j) <? 10)%Z) eqn:Eo; [cbn [bind]; exact IHt|].
    assert (E10 : cell g (i, j) = 10%Z).
    { apply orb_false_iff in Ef as [_ Ef]. apply orb_false_iff in Eo as [Eo1 Eo2]. apply Z.eqb_neq in Ef, Eo1. apply Z.ltb_ge in Eo2. lia. }
    assert (Hsm : small_blocks h) by exact (@marked_small row column g M c Hsmall' L h HL Hm).
    assert (Hmh : forall p, inb row column p -> cell h p = cell g p \/ cell g p = 10%Z /\ cell h p = 12%Z /\ Spec.near c p).
    { intros p Hp. destruct (in_dec pos_eq_dec p L) as [Hi|Hi]; [right|left; auto]. destruct (H1 p Hi) as (_ & X1 & X2). split; auto. split; auto. apply HL in Hi. now apply (@in_Z0 row column g M c) in Hi as [_ Hi]. }
    assert (Hfew : few_choices h N) by (apply Hsmall; auto).
    assert (Hproper : proper row column h) by (intros p Hp; destruct (Hmh p Hp) as [->|(_ & -> & _)]; [apply Hvals, Hp|lia]).
    assert (Hcov' : length (covered_cells row column h) <= 800) by (apply Nat.le_trans with (1 := @marked_fewer row column g h (Spec.near c) Hmh); exact Hcov).
    destruct (@C80_onboard_float row column h M N Hrh H0 Hproper Hsm (@marked_over row column g M c H0 Ho Hvals' Hsmall' L h Hm) Hcov' Hfew HN HM1 HM2) as [KE KO].
    destruct (@onboard_cases row column h M Hrh H0 Hsm (@marked_over row column g M c H0 Ho Hvals' Hsmall' L h Hm)) as [(e & E)|(P & range & E & HP)].
    { pose proof (proj2 (KE e) E) as E'. rewrite E, E'. cbn [bind]. rewrite none_stays, none_stays_f. exists None, None, h, h. auto. }
    destruct (KO _ _ E) as (P' & E' & _ & HP'). rewrite E, E'. destruct (HP' i j Hb) as (fa & fn & f & G1 & G2 & Hle' & Hpr & _).
    rewrite G1, G2. cbn [bind fst snd]. unfold usub. destruct (Nat.leb_spec fa fn); [|lia]. cbn [bind]. rewrite (set_ok _ Hrh Hb). cbn [bind].
    apply (IH (L ++ [(i, j)]) (upd h (i, j) 12%Z) (a * (fn - fa)) (b * fn) (fmul x (fsub f_one f)) (S k)); auto.
    + intros p Hp. apply in_app_iff in Hp as [Hp|[<-|[]]]; [auto|apply Hinc; now left].
    + intros p Hi Hi2. apply in_app_iff in Hi2 as [Hi2|[<-|[]]]; [apply (Hdis p); auto; now right|contradiction].
    + apply marked_snoc; auto. apply Hdis. now left.
    + apply Nat.mul_le_mono; lia.
    + lia.
    + apply frac_step; auto. lia.
Qed.
Lemma op_agrees : exists a b x, op_possibility g (Count M) c = Ok (a, b) /\ op_possibility_f g (f_of M) c = Ok x /\ frac_near N 9 a b x.
Proof.
  rewrite (op_unfold M c Hr H0). unfold op_possibility_f. rewrite (nrows_ok Hr), (ncolsR_ok Hr H0). cbn [bind].
  destruct (@loop_sim (zone row column (fst c) (snd c)) [] g 1 1 f_one 0) as (st & st' & h' & h2 & E & E' & Hst); auto.
  - exact (@zone_Z0 row column g M c). - intros q []. - apply NoDup_zone. - now apply marked_none. - apply zone_length.
  - destruct one_ok as [V F]. split; [|discriminate]. intros _. split; auto. rewrite V. cbn [INR]. unfold Rdiv. rewrite Rinv_1, Rmult_1_l, Rminus_diag_eq, Rabs_R0, Rmult_0_l by reflexivity. lra.
  - rewrite E, E'. cbn [bind]. destruct st as [[a b]|], st' as [x|]; try contradiction.
    + exists a, b, x. auto.
    + exists 0, 1, f_zero. split; [reflexivity|]. split; [reflexivity|]. split; [|discriminate]. intros _. split; [reflexivity|]. change (val f_zero) with 0%R. cbn [INR].
      unfold Rdiv. rewrite Rmult_0_l, Rminus_0_r, Rabs_R0. apply Rmult_le_pos; [apply (pos_INR 9)|]. apply Rmult_le_pos; [lra|]. apply Rmult_le_pos; [apply pos_INR|apply bpow_ge_0].
Qed.
End Cell.

(** C65 in f64 arithmetic, every position: the function always answers, with NaN or with a number in
    [0, 1] (up to the error). *)
Theorem C65_float_total_partial : forall row column g M N c, rect row column g -> 0 < row -> not_overflagged row column g ->
  (forall q, inb row column q -> (0 <= cell g q <= 12)%Z) -> length (covered_cells row column g) <= 800 ->
  (forall h, rect row column h -> (forall q, inb row column q -> cell h q = cell g q \/ cell g q = 10%Z /\ cell h q = 12%Z /\ Spec.near c q) -> small_blocks h /\ few_choices h N) ->
  N <= 2 ^ 38 -> 1 <= M -> (Z.of_nat M < 2 ^ 53)%Z ->
  exists x, op_possibility_f g (f_of M) c = Ok x /\
    (is_nan 53 1024 x = true \/ is_finite 53 1024 x = true /\ exists y : Real, (0 <= y <= 1)%R /\ (Rabs (val x - y) <= 18 * (INR (N + 4 * 1000) * bpow radix2 (-50)))%R).
Proof.
  intros row column g M N c Hr H0 Ho Hvals Hcov Hsmall HN HM1 HM2. destruct (@op_agrees row column g M N c Hr H0 Ho Hvals Hcov Hsmall HN HM1 HM2) as (a & b & x & E & E' & H1 & H2).
  destruct (@C65_total_partial row column g M c Hr H0 Ho (fun q Hq => proj2 (Hvals q Hq)) (fun h A B => proj1 (Hsmall h A B))) as (f & E2 & Hf). assert (f = (a, b)) by congruence. subst f. cbn [fst snd] in Hf.
  exists x. split; auto. destruct (Nat.eq_dec b 0) as [Hb|Hb]; [left; auto|right]. destruct (H1 Hb) as [F Ex]. split; auto. exists (INR a / INR b)%R. split; [now apply ratio_01|].
  replace (INR 9) with 9%R in Ex by (cbn; lra). apply Rle_trans with (1 := Ex). right. ring.
Qed.
Print Assumptions C65_float_total_partial.
(** C65 in f64 arithmetic, every position with an explanation with [M] mines, every closed cell: the
    probability of an opening up to the error, or NaN, and that only if an opening is impossible. *)
Theorem C65_float_exact_partial : forall row column g M N c, satisfiable row column g -> inb row column c -> (10 <= cell g c)%Z ->
  (forall q, inb row column q -> (0 <= cell g q <= 12)%Z) -> length (covered_cells row column g) <= 800 ->
  (forall h, rect row column h -> (forall q, inb row column q -> cell h q = cell g q \/ cell g q = 10%Z /\ cell h q = 12%Z /\ Spec.near c q) -> small_blocks h /\ few_choices h N) ->
  N <= 2 ^ 38 -> 1 <= M -> (Z.of_nat M < 2 ^ 53)%Z -> n_worlds row column g M <> 0 ->
  exists x, op_possibility_f g (f_of M) c = Ok x /\
    let free := n_worlds_free row column g M (filter (nearb c) (positions row column)) in
    (is_finite 53 1024 x = true /\ (Rabs (val x - INR free / INR (n_worlds row column g M)) <= 18 * (INR (N + 4 * 1000) * bpow radix2 (-50)))%R) \/
    free = 0 /\ is_nan 53 1024 x = true.
Proof.
  intros row column g M N c Hsat Hc Hopen Hvals Hcov Hsmall HN HM1 HM2 HW. pose proof Hsat as (Hr & H0 & _).
  destruct (@op_agrees row column g M N c Hr H0 (satisfiable_flags Hsat) Hvals Hcov Hsmall HN HM1 HM2) as (a & b & x & E & E' & H1 & H2).
  destruct (@C65_exact_partial row column g M c Hsat (fun q Hq => proj1 (Hvals q Hq)) Hc Hopen (fun q Hq => proj2 (Hvals q Hq)) (fun h A B => proj1 (Hsmall h A B)) HW) as (a' & b' & E2 & K).
  assert (X : (a', b') = (a, b)) by congruence. injection X as -> ->. exists x. split; auto. cbv zeta in K |- *. set (free := n_worlds_free row column g M (filter (nearb c) (positions row column))) in *.
  set (W := n_worlds row column g M) in *. destruct K as [K1 K2].
  destruct (Nat.eq_dec b 0) as [Hb|Hb].
  - right. split; [|auto]. destruct (Nat.eq_dec free 0) as [|Hf]; auto. destruct (K1 Hf) as [_ Q]. cbn [snd] in Q. exfalso. apply (Q HW Hb).
  - left. destruct (H1 Hb) as [F Ex]. split; auto. replace (INR free / INR W)%R with (INR a / INR b)%R.
    + replace (INR 9) with 9%R in Ex by (cbn; lra). apply Rle_trans with (1 := Ex). right. ring.
    + assert (INR b <> 0)%R by (apply not_0_INR; auto). assert (INR W <> 0)%R by (apply not_0_INR; auto).
      assert (Q : (INR a * INR W = INR free * INR b)%R).
      { rewrite <- !mult_INR. f_equal. destruct (Nat.eq_dec free 0) as [Ez|Hf]; [rewrite (K2 Ez), Ez; lia|]. destruct (K1 Hf) as [Q _]. exact Q. }
      apply (Rmult_eq_reg_r (INR b * INR W)); [|now apply Rmult_integral_contrapositive]. field_simplify; [|auto|auto]. lra.
Qed.
Print Assumptions C65_float_exact_partial.

(** The hypotheses hold of a position with contradictory numbers; f64 answers 0 there. *)
Example C65_float_case : rect 2 2 [[1; 2]; [10; 10]]%Z /\ not_overflagged 2 2 [[1; 2]; [10; 10]]%Z /\
  length (covered_cells 2 2 [[1; 2]; [10; 10]]%Z) <= 800 /\
  (forall h, rect 2 2 h -> (forall q, inb 2 2 q -> cell h q = cell [[1; 2]; [10; 10]]%Z q \/ cell [[1; 2]; [10; 10]]%Z q = 10%Z /\ cell h q = 12%Z /\ Spec.near (1, 0) q) -> small_blocks h /\ few_choices h (2 ^ 2)) /\
  match op_possibility_f [[1; 2]; [10; 10]]%Z (f_of 1) (1, 0) with Ok x => bits_of_b64 x = 0%Z | _ => False end.
Proof.
  destruct C80_case_contradiction as (Hr & _ & Ho & _). split; [exact Hr|]. split; [exact Ho|].
  assert (L : length (covered_cells 2 2 [[1; 2]; [10; 10]]%Z) = 2) by (vm_compute; reflexivity).
  split; [rewrite L; lia|]. split; [|vm_compute; reflexivity].
  intros h Hh Hcell. pose proof (@marked_fewer 2 2 _ h (Spec.near (1, 0)) Hcell) as F. rewrite L in F.
  split; [apply (@few_covered_small 2 2); auto; lia|apply (@few_covered_choices 2 2 h 2 Hh ltac:(lia)); exact F].
Qed.
