(** * PropsPossFloat: C33, the probabilities in f64 arithmetic. *)
From Coq Require Import ZArith Reals Lia Lra Bool List.
From Flocq Require Import Core IEEE754.BinarySingleNaN IEEE754.Binary IEEE754.Bits.
From Verif Require Import Base Spec BaseFacts LayMine Matrix Solve Utils UtilsProofs SolverSpec MatrixProofs EnumProofs SolveProofs PosProofs FloatTime FloatQuot FloatTrace BigNum FloatNear BigNumProofs BigBinom PropsBigNum
  Possibility PossSpec PossProofs PossSums PossCode PossMain PropsPoss PossBoard PropsOpening PossFloat PossFloatProofs PossFloatMain PossFloatPos.
Import ListNotations.
Open Scope nat_scope.
Local Notation val := (B2R 53 1024).
#[local] Opaque Nat.pow.

(** Every block of border cells has at most (its number of cells + 1) mine numbers; [N] bounds the number
    of ways to choose one for each block. (The code builds the list of all these ways.) *)
Definition few_choices (g : board) (N : nat) : Prop :=
  forall bl k1 k2, refresh_matrixs g = Ok (bl, k1, k2) -> fold_right Nat.mul 1 (map (fun B => length (vars B) + 1) bl) <= N.
(** [x] is a probability of [a] in [n], with a relative error of at most (N + 4000) / 2^50; NaN for 0/0 *)
Definition f_prob (N : nat) (x : binary64) (a n : nat) : Prop :=
  (n <> 0 -> is_finite 53 1024 x = true /\
     (Rabs (B2R 53 1024 x - INR a / INR n) <= INR a / INR n * (INR (N + 4 * 1000) * bpow radix2 (-50)))%R) /\
  (n = 0 -> is_nan 53 1024 x = true).

Lemma prod_fold bl : prod (map (fun B => S (length (vars B))) bl) = fold_right Nat.mul 1 (map (fun B => length (vars B) + 1) bl).
Proof. induction bl as [|B bl IH]; auto. cbn [map prod fold_right]. rewrite IH. f_equal. lia. Qed.
Lemma half : (bpow radix2 (-50) = 2 * bpow radix2 (-51))%R.
Proof. change 2%R with (bpow radix2 1). rewrite <- bpow_plus. reflexivity. Qed.
Lemma near_prob N a n x : N <= 2 ^ 38 -> near (grade N) (INR a / INR n) x ->
  is_finite 53 1024 x = true /\ (Rabs (val x - INR a / INR n) <= INR a / INR n * (INR (N + 4 * 1000) * bpow radix2 (-50)))%R.
Proof.
  intros HN H. split; [exact (nr_fin H)|]. apply Nat2Z.inj_le in HN. rewrite Nat2Z.inj_pow in HN. change (Z.of_nat 2 ^ Z.of_nat 38)%Z with (2 ^ 38)%Z in HN.
  pose proof (@near_rel (grade N) _ _ H ltac:(unfold grade; lia)) as E. apply Rle_trans with (1 := E). right. f_equal. rewrite half.
  replace (grade N) with (2 * (N + 4 * 1000)) by (unfold grade; lia). rewrite mult_INR. change (INR 2) with 2%R. ring.
Qed.
Lemma frep_prob N a n x : N <= 2 ^ 38 -> frep (grade N) (a, n) x -> (n = 0 -> a = 0) -> f_prob N x a n.
Proof. intros HN [F1 F2] Hz. cbn [fst snd] in F1, F2. split; intros H; [apply near_prob; auto|apply F2; auto]. Qed.
(** the same fraction, scaled *)
Lemma frep_scale N a n U x : N <= 2 ^ 38 -> U <> 0 -> frep (grade N) (U * a, n * U) x -> (n = 0 -> a = 0) -> f_prob N x a n.
Proof.
  intros HN HU [F1 F2] Hz. cbn [fst snd] in F1, F2. split; intros H.
  - apply near_prob; auto. replace (INR a / INR n)%R with (INR (U * a) / INR (n * U))%R; [apply F1; lia|]. rewrite !mult_INR. field.
    split; apply not_0_INR; auto.
  - apply F2; [lia|]. rewrite Hz by auto. lia.
Qed.
Lemma at_le row column g M q : n_worlds row column g M = 0 -> n_worlds_at row column g M q = 0.
Proof.
  intros H. assert (G : n_worlds_at row column g M q <= n_worlds row column g M).
  { unfold n_worlds_at, n_worlds. rewrite !count_b1. apply TableProofs.sumn_le. intros s _. destruct (worldb _ _ _ _ _), (mines_at s q); cbn; lia. }
  lia.
Qed.

(** ** the parameter *)
Lemma nat_lt53 M : (Z.of_nat M < 2 ^ 53)%Z -> val (f_of M) = INR M /\ is_finite 53 1024 (f_of M) = true.
Proof. intros H. destruct (@exact_near (Z.of_nat M) ltac:(lia)) as [Nr V]. split; [|exact (nr_fin Nr)]. unfold f_of. rewrite V. symmetry. apply INR_IZR_INZ. Qed.
(** A number of mines from 1 on is taken as it is. *)
Theorem C33_parameter : forall area M, 1 <= M -> (Z.of_nat M < 2 ^ 53)%Z -> spec_of_f64 area (f_of M) = Count M.
Proof.
  intros area M H1 H2. destruct (nat_lt53 H2) as [V F]. unfold spec_of_f64.
  assert (E : f_lt (f_of M) f_one = false).
  { destruct (f_lt (f_of M) f_one) eqn:E; auto. exfalso. destruct (@exact_near 1%Z ltac:(lia)) as [N1 V1]. apply (lt_finite F (nr_fin N1)) in E.
    change (f64_of_Z 1) with f_one in *. rewrite V, V1 in E. apply le_INR in H1. change (INR 1) with 1%R in H1. lra. }
  rewrite E. f_equal. rewrite (@trunc_ok (f_of M) (Z.of_nat M)); auto; [now rewrite Nat2Z.id|lia|]. rewrite V, <- INR_IZR_INZ. lra.
Qed.
Print Assumptions C33_parameter.
(** 0 is below 1, hence a ratio, not a number of mines. *)
Theorem C33_parameter_zero : forall area, (Z.of_nat area < 2 ^ 53)%Z -> spec_of_f64 area (f_of 0) = Ratio 0.
Proof.
  intros area H. destruct (nat_lt53 H) as [V F]. unfold spec_of_f64.
  replace (f_lt (f_of 0) f_one) with true by (vm_compute; reflexivity). f_equal.
  change (f_of 0) with (B754_zero 53 1024 false). unfold fmul, b64_mult. destruct (f_of area); try discriminate F; reflexivity.
Qed.
Print Assumptions C33_parameter_zero.
Lemma f64_count row column g M : rect row column g -> 0 < row -> 1 <= M -> (Z.of_nat M < 2 ^ 53)%Z -> possibility_f64 g (f_of M) = cal_possibility_f g (Count M).
Proof. intros Hr H0 H1 H2. unfold possibility_f64. rewrite (ncolsR_ok Hr H0). cbn [bind]. now rewrite C33_parameter. Qed.

(** ** the function *)
Theorem C33_cal_possibility : forall row column g M N, satisfiable row column g -> proper row column g -> small_blocks g ->
  length (covered_cells row column g) <= 800 -> few_choices g N -> N <= 2 ^ 38 -> 1 <= M -> (Z.of_nat M < 2 ^ 53)%Z ->
  (M < flag_count row column g -> possibility_f64 g (f_of M) = Err 17) /\
  (flag_count row column g <= M -> (forall r, r <= M -> n_worlds row column g r = 0) -> possibility_f64 g (f_of M) = Err 3) /\
  (forall r, r <= M -> n_worlds row column g r <> 0 ->
   exists p pu range len, possibility_f64 g (f_of M) = Ok (p, pu, range, len) /\
     NoDup (map fst p) /\ (forall q, In q (map fst p) <-> front_cell row column g q) /\
     (forall q x, In (q, x) p -> f_prob N x (n_worlds_at row column g M q) (n_worlds row column g M)) /\
     (forall q, inner_cell row column g q -> f_prob N pu (n_worlds_at row column g M q) (n_worlds row column g M)) /\
     ((forall q, ~ inner_cell row column g q) -> is_nan 53 1024 pu = true)).
Proof.
  intros row column g M N Hsat Hprop Hsmall Hc HN HN2 HM1 HM2. destruct (situation_ok Hsat Hsmall) as (bl & W & St).
  rewrite (@f64_count row column g M) by (auto; apply Hsat).
  pose proof (HN _ _ _ (st_refresh St)) as HNb. rewrite <- prod_fold in HNb.
  pose proof (@cal_possibility_sim row column g Hprop bl W St N (Count M) Hc HNb HN2) as Ag.
  destruct (@C33_cal_possibility_partial row column g M Hsat Hprop Hsmall) as (X1 & X2 & X3).
  split; [|split].
  - intros H. rewrite (X1 H) in Ag. exact Ag.
  - intros H1 H2. rewrite (X2 H1 H2) in Ag. exact Ag.
  - intros r Hr Hw. destruct (X3 r Hr Hw) as (p & pu & range & len & E & Nd & Hf & Hv & _). pose proof E as E0. rewrite E in Ag. cbn [agrees] in Ag.
    destruct Ag as (p' & pu' & -> & F & Fu). exists p', pu', range, len. split; [reflexivity|].
    assert (Ef : map fst p' = map fst p) by (clear - F; induction F as [|a b l l' [Ha _] F IH]; cbn [map]; congruence).
    rewrite Ef. split; auto. split; auto.
    assert (Epu : pu = (ways (full (length (inner_cells row column g)) (fun k => k)) (rowsB bl W) (exactly (M - flag_count row column g)), n_worlds row column g M * length (inner_cells row column g))).
    { pose proof (least_ok Hprop St) as [HL1 HL2].
      assert (Hge : flag_count row column g + nsum (map fst W) <= M) by (destruct (Nat.lt_ge_cases M (flag_count row column g + nsum (map fst W))); [exfalso; apply Hw, HL2; lia|auto]).
      rewrite (@cal_ok row column g Hprop bl W St (Count M) (M - flag_count row column g)) in E0.
      2:{ destruct (Nat.ltb_spec M (flag_count row column g)); [lia|reflexivity]. }
      destruct (Nat.ltb_spec (M - flag_count row column g) (nsum (map fst W))); [lia|]. replace (flag_count row column g + (M - flag_count row column g)) with M in E0 by lia. congruence. }
    split; [|split].
    + intros q x Hin. clear - F Hv Hin HN2. induction F as [|[q1 [a b]] [q2 y] l l' [Ha Hb] F IH]; [destruct Hin|]. cbn [fst snd] in Ha, Hb. subst q2. destruct Hin as [Eq|Hin].
      * injection Eq as <- <-. destruct (Hv q1 a b (or_introl eq_refl)) as [-> ->]. apply frep_prob; auto. apply at_le.
      * apply IH; auto. intros. apply Hv. now right.
    + intros q Hq. rewrite Epu in Fu. pose proof (inner_value Hprop St (M - flag_count row column g) Hq) as Ev. rewrite Ev in Fu.
      assert (Hge : flag_count row column g <= M).
      { destruct (Nat.lt_ge_cases M (flag_count row column g)) as [L|L]; auto. exfalso. rewrite (X1 L) in E. discriminate E. }
      replace (flag_count row column g + (M - flag_count row column g)) with M in Fu by lia.
      apply (frep_scale HN2) with (2 := Fu); [|apply at_le]. apply (inner_iff Hprop) in Hq. destruct (inner_cells row column g); [destruct Hq|discriminate].
    + intros Hno. assert (HU : length (inner_cells row column g) = 0).
      { destruct (inner_cells row column g) as [|q l] eqn:Ei; auto. exfalso. apply (Hno q). apply (inner_iff Hprop). rewrite Ei. now left. }
      destruct Fu as [_ Fu]. apply Fu; rewrite Epu; cbn [fst snd]; [lia|now apply (no_inner St)].
Qed.
Print Assumptions C33_cal_possibility.

(** The three mine numbers and the last component, as in C33_range; a ratio, as in C33_ratio. *)
Theorem C33_range_float : forall row column g M N lo hi, satisfiable row column g -> proper row column g -> small_blocks g ->
  length (covered_cells row column g) <= 800 -> few_choices g N -> N <= 2 ^ 38 -> 1 <= M -> (Z.of_nat M < 2 ^ 53)%Z ->
  least_mines row column g lo -> most_mines row column g hi -> lo <= M ->
  exists p pu len, possibility_f64 g (f_of M) = Ok (p, pu, (lo, M, Nat.min hi (M + n_inner row column g)), len) /\
    forall bl k1 k2, refresh_matrixs g = Ok (bl, k1, k2) ->
      (forall B, In B bl -> length (vars B) <= len) /\ (bl <> [] -> exists B, In B bl /\ length (vars B) = len).
Proof.
  intros row column g M N lo hi Hsat Hprop Hsmall Hc HN HN2 HM1 HM2 Hlo Hhi HM. destruct (situation_ok Hsat Hsmall) as (bl & W & St).
  rewrite (@f64_count row column g M) by (auto; apply Hsat). pose proof (HN _ _ _ (st_refresh St)) as HNb. rewrite <- prod_fold in HNb.
  pose proof (@cal_possibility_sim row column g Hprop bl W St N (Count M) Hc HNb HN2) as Ag.
  destruct (@C33_range row column g M lo hi Hsat Hprop Hsmall Hlo Hhi HM) as (p & pu & len & E & H). rewrite E in Ag. destruct Ag as (p' & pu' & -> & _). exists p', pu', len. auto.
Qed.
Print Assumptions C33_range_float.
Theorem C33_ratio_float : forall row column g k lo hi, satisfiable row column g -> proper row column g -> small_blocks g ->
  least_mines row column g lo -> most_mines row column g hi ->
  (k < flag_count row column g -> cal_possibility_f g (Ratio k) = Panic) /\
  (flag_count row column g <= k -> cal_possibility_f g (Ratio k) = cal_possibility_f g (Count (Nat.min (Nat.max k lo) hi))).
Proof.
  intros row column g k lo hi Hsat Hprop Hsmall Hlo Hhi. destruct (situation_ok Hsat Hsmall) as (bl & W & St).
  pose proof (least_unique Hlo (least_ok Hprop St)) as El. pose proof (most_unique Hhi (most_ok Hprop St)) as Eh. rewrite !(cal_unfold_f St). split.
  - intros H. unfold usub. destruct (Nat.leb_spec (flag_count row column g) k); [lia|reflexivity].
  - intros H. set (m := Nat.min (Nat.max (k - flag_count row column g) (nsum (map fst W))) (nsum (map top W) + length (inner_cells row column g))).
    replace (let* d := usub k (flag_count row column g) in Ok (Nat.min (Nat.max d (nsum (map fst W))) (nsum (map top W) + length (inner_cells row column g)))) with (Ok m).
    2:{ unfold usub. destruct (Nat.leb_spec (flag_count row column g) k); [reflexivity|lia]. }
    destruct (Nat.ltb_spec (Nat.min (Nat.max k lo) hi) (flag_count row column g)); [lia|].
    replace (Nat.min (Nat.max k lo) hi - flag_count row column g) with m; [reflexivity|]. unfold m. lia.
Qed.
Print Assumptions C33_ratio_float.

(** ** on the board *)
Section Onboard.
Variables (row column : nat) (g : board).
Hypothesis Hr : rect row column g.
Notation cellf := (gcell f_zero).
Lemma put_ok_f pp : forall (p : list (list binary64)), rect row column p -> NoDup (map fst pp) -> (forall q, In q (map fst pp) -> inb row column q) ->
  exists p', foldM (fun p '((x, y), f) => set p x y f) pp p = Ok p' /\ rect row column p' /\
    (forall q f, In (q, f) pp -> cellf p' q = f) /\ (forall q, ~ In q (map fst pp) -> cellf p' q = cellf p q).
Proof.
  induction pp as [|[[x y] f] pp IH]; intros p Hp Nd Hin.
  - exists p. split; [reflexivity|]. split; auto. split; [intros q f []|auto].
  - cbn [map fst] in Nd, Hin. inversion Nd as [|? ? Hn Nd']; subst. assert (Hb : inb row column (x, y)) by (apply Hin; now left).
    cbn [foldM]. rewrite (set_ok _ Hp Hb). cbn [bind].
    destruct (IH (upd p (x, y) f) (rect_upd _ _ Hp) Nd' (fun q Hq => Hin q (or_intror Hq))) as (p' & E & Hp' & H1 & H2).
    exists p'. split; auto. split; auto. split.
    + intros q f' [Eq|Hi]; [|now apply H1]. injection Eq as <- <-. rewrite H2 by auto. eapply gcell_upd_eq; eauto.
    + intros q Hq. cbn [map fst In] in Hq. rewrite H2 by tauto. apply gcell_upd_neq. tauto.
Qed.
Definition final_f (pu : binary64) (q : pos) (w : binary64) : binary64 :=
  if (cell g q =? 11)%Z then f_one
  else if (cell g q =? 10)%Z && f_lt w f_minus_half then pu
  else if (cell g q =? 12)%Z then f_zero
  else if f_lt w f_minus_half then f_zero else w.
Definition finish_step (pu : binary64) (p : list (list binary64)) (rc : nat * nat) : R (list (list binary64)) :=
  let '(r, c) := rc in
              let* v := get g r c in
              if (v =? 11)%Z then set p r c f_one
              else
                let* w := get p r c in
                if (v =? 10)%Z && f_lt w f_minus_half then set p r c pu
                else if (v =? 12)%Z then set p r c f_zero
                else if f_lt w f_minus_half then set p r c f_zero
                else Ok p.
Lemma finish_ok_f (pu : binary64) (l : list pos) : forall p : list (list binary64), rect row column p -> NoDup l -> (forall q, In q l -> inb row column q) ->
  exists p' : list (list binary64), foldM (finish_step pu) l p = Ok p' /\ rect row column p' /\
     (forall q, In q l -> cellf p' q = final_f pu q (cellf p q)) /\ (forall q, ~ In q l -> cellf p' q = cellf p q).
Proof.
  induction l as [|[r c] l IH]; intros p Hp Nd Hin.
  - exists p. split; [reflexivity|]. split; auto. split; [intros q []|auto].
  - inversion Nd as [|? ? Hn Nd']; subst. assert (Hb : inb row column (r, c)) by (apply Hin; now left).
    assert (E1 : exists p1, finish_step pu p (r, c) = Ok p1 /\ rect row column p1 /\ cellf p1 (r, c) = final_f pu (r, c) (cellf p (r, c)) /\ forall q, q <> (r, c) -> cellf p1 q = cellf p q).
    { unfold finish_step. rewrite (get_ok Hr Hb). cbn [bind]. rewrite (get_gok f_zero Hp Hb). cbn [bind]. unfold final_f. set (w := cellf p (r, c)).
      assert (S1 : forall f, exists p1, set p r c f = Ok p1 /\ rect row column p1 /\ cellf p1 (r, c) = f /\ forall q, q <> (r, c) -> cellf p1 q = cellf p q).
      { intros f. exists (upd p (r, c) f). split; [now apply (set_ok _ Hp)|]. split; [now apply rect_upd|]. split; [eapply gcell_upd_eq; eauto|]. intros q Hq. apply gcell_upd_neq. congruence. }
      destruct (cell g (r, c) =? 11)%Z; [apply S1|]. destruct ((cell g (r, c) =? 10)%Z && f_lt w f_minus_half); [apply S1|].
      destruct (cell g (r, c) =? 12)%Z; [apply S1|]. destruct (f_lt w f_minus_half); [apply S1|]. exists p. split; auto. }
    destruct E1 as (p1 & E1 & Hp1 & V1 & O1). cbn [foldM]. rewrite E1. cbn [bind].
    destruct (IH p1 Hp1 Nd' (fun q Hq => Hin q (or_intror Hq))) as (p' & E & Hp' & V & O). exists p'. split; auto. split; auto. split.
    + intros q [<-|Hq]; [rewrite O by auto; exact V1|]. rewrite V by auto. f_equal. apply O1. intros ->. contradiction.
    + intros q Hq. cbn [In] in Hq. rewrite O by tauto. apply O1. intros ->. tauto.
Qed.
End Onboard.
Lemma minus_half : is_finite 53 1024 f_minus_half = true /\ (val f_minus_half < 0)%R.
Proof.
  split; [vm_compute; reflexivity|]. destruct (Rlt_le_dec (val f_minus_half) 0) as [|H]; auto. exfalso.
  assert (G : f_ge f_minus_half f_zero = true) by (apply ge_finite; [vm_compute; reflexivity|vm_compute; reflexivity|exact H]). revert G. vm_compute. discriminate.
Qed.
Lemma prob_not_low N x a n : (n = 0 -> a = 0) -> N <= 2 ^ 38 -> frep (grade N) (a, n) x -> f_lt x f_minus_half = false.
Proof.
  intros Hz HN [F1 F2]. cbn [fst snd] in *. destruct (Nat.eq_dec n 0) as [E|E].
  - specialize (F2 E (Hz E)). destruct x; try discriminate F2. reflexivity.
  - specialize (F1 E). destruct (f_lt x f_minus_half) eqn:L; auto. exfalso. destruct minus_half as [H1 H2]. apply (lt_finite (nr_fin F1) H1) in L. pose proof (nr_pos F1). lra.
Qed.

(** Every cell of the board: 1 for a flag, 0 for what is neither a flag nor covered, and the probability
    of a mine for a covered cell. *)
Theorem C33_onboard : forall row column g M N r, satisfiable row column g -> proper row column g -> small_blocks g ->
  length (covered_cells row column g) <= 800 -> few_choices g N -> N <= 2 ^ 38 -> 1 <= M -> (Z.of_nat M < 2 ^ 53)%Z ->
  r <= M -> n_worlds row column g r <> 0 ->
  exists P range, possibility_onboard_f64 g (f_of M) = Ok (P, range) /\ rect row column P /\
    forall i j, inb row column (i, j) -> exists x, get P i j = Ok x /\
      (cell g (i, j) = 11%Z -> x = f_one) /\
      (cell g (i, j) = 10%Z -> f_prob N x (n_worlds_at row column g M (i, j)) (n_worlds row column g M)) /\
      (cell g (i, j) <> 11%Z -> cell g (i, j) <> 10%Z -> x = f_zero).
Proof.
  intros row column g M N r Hsat Hprop Hsmall Hc HN HN2 HM1 HM2 HM Hw. pose proof Hsat as (Hr & H0 & _).
  destruct (@C33_cal_possibility row column g M N Hsat Hprop Hsmall Hc HN HN2 HM1 HM2) as (_ & _ & H). destruct (H r HM Hw) as (p & pu & range & len & E & Nd & Hf & Hv & Hi & _). clear H.
  rewrite (@f64_count row column g M) in E by auto.
  assert (Hlow : forall q x, In (q, x) p -> f_lt x f_minus_half = false).
  { destruct (situation_ok Hsat Hsmall) as (bl & W & St). pose proof (HN _ _ _ (st_refresh St)) as HNb. rewrite <- prod_fold in HNb.
    pose proof (@cal_possibility_sim row column g Hprop bl W St N (Count M) Hc HNb HN2) as Ag.
    destruct (@C33_cal_possibility_partial row column g M Hsat Hprop Hsmall) as (_ & _ & X3). destruct (X3 r HM Hw) as (p0 & pu0 & range0 & len0 & E0 & _ & _ & Hv0 & _).
    rewrite E0 in Ag. cbn [agrees] in Ag. destruct Ag as (p' & pu' & E' & F & _). assert (p' = p) by congruence. subst p'. clear - F Hv0 HN2.
    induction F as [|[q1 [a b]] [q2 y] l l' [Ha Hb] F IH]; [intros q x []|]. cbn [fst snd] in Ha, Hb. subst q2. intros q x [Eq|Hin].
    - injection Eq as <- <-. apply (@prob_not_low N y a b); auto. destruct (Hv0 q1 a b (or_introl eq_refl)) as [-> ->]. apply at_le.
    - apply (IH (fun q a b H => Hv0 q a b (or_intror H)) q x Hin). }
  unfold possibility_onboard_f64. rewrite (ncolsR_ok Hr H0). cbn [bind]. rewrite C33_parameter by auto. unfold cal_possibility_onboard_f.
  rewrite (nrows_ok Hr), (ncolsR_ok Hr H0). cbn [bind]. rewrite E. cbn [bind].
  destruct (@put_ok_f row column p (mkboard row column f_minus_one) (rect_mkboard _ _ _) Nd) as (p1 & E1 & Hp1 & V1 & O1). { intros q Hq. apply Hf in Hq. apply Hq. }
  rewrite E1. cbn [bind]. destruct (@finish_ok_f row column g Hr pu (grid row column) p1 Hp1) as (p2 & E2 & Hp2 & V2 & _); [apply NoDup_positions|intros q Hq; now apply in_positions|].
  match goal with |- context [bind ?X _] => change X with (foldM (finish_step g pu) (grid row column) p1) end. rewrite E2. cbn [bind].
  do 2 eexists. split; [reflexivity|]. split; auto. intros i j Hb. set (q := (i, j)) in *. exists (gcell f_zero p2 q). split; [exact (get_gok f_zero Hp2 Hb)|].
  rewrite V2 by (now apply in_positions). unfold final_f.
  destruct (Z.eqb_spec (cell g q) 11) as [E11|N11]; [split; [auto|split; [congruence|congruence]]|]. split; [contradiction|].
  destruct (in_dec pos_eq_dec q (map fst p)) as [Hin|Hout].
  - assert (Hfr : front_cell row column g q) by (now apply Hf). destruct Hfr as (_ & Hcv & _).
    apply in_map_iff in Hin as ([q' x] & Eq & Hin). cbn [fst] in Eq. subst q'. rewrite (V1 q x Hin), (Hlow q x Hin), andb_false_r, Hcv. cbn [Z.eqb]. split; [intros _; now apply Hv|congruence].
  - rewrite O1 by auto. rewrite gcell_mkboard by auto. replace (f_lt f_minus_one f_minus_half) with true by (vm_compute; reflexivity). rewrite andb_true_r.
    destruct (Z.eqb_spec (cell g q) 10) as [Hcv|Hcv].
    + split; [intros _|congruence]. apply Hi. split; auto. split; auto. intros z Hz Hn Hnum. apply Hout, Hf. split; auto. split; auto. exists z. auto.
    + split; [congruence|]. intros _ _. destruct (Z.eqb_spec (cell g q) 12); reflexivity.
Qed.
Print Assumptions C33_onboard.

(** ** A case: 9 covered cells, one block of 6 cells, 2 mines; the inner cells get the double nearest to 1/3 *)
Example C33_float_case : satisfiable 3 4 poss_demo /\ proper 3 4 poss_demo /\ small_blocks poss_demo /\
  length (covered_cells 3 4 poss_demo) <= 800 /\ few_choices poss_demo 7 /\ n_worlds 3 4 poss_demo 2 = 3 /\ n_worlds_at 3 4 poss_demo 2 (2, 0) = 1 /\
  match possibility_f64 poss_demo (f_of 2) with
  | Ok (p, pu, range, len) => map (fun e => (fst e, bits_of_b64 (snd e))) p =
      [(0, 1, 0%Z); (1, 1, 0%Z); (1, 3, bits_of_b64 f_one); (2, 1, 0%Z); (2, 2, 0%Z); (2, 3, 0%Z)] /\
      bits_of_b64 pu = bits_of_b64 (fdiv (f_of 1) (f_of 3)) /\ range = (1, 2, 4) /\ len = 6
  | _ => False
  end.
Proof.
  destruct C33_case as (H1 & H2 & H3 & _). split; [exact H1|]. split; [exact H2|]. split; [exact H3|].
  split; [replace (length (covered_cells 3 4 poss_demo)) with 9 by (vm_compute; reflexivity); lia|].
  split. { intros bl k1 k2 E. assert (X : match refresh_matrixs poss_demo with Ok (bl, _, _) => (fold_right Nat.mul 1 (map (fun B => length (vars B) + 1) bl) <=? 7) = true | _ => True end) by (vm_compute; reflexivity).
    rewrite E in X. now apply Nat.leb_le. }
  split; [vm_compute; reflexivity|]. split; [vm_compute; reflexivity|]. vm_compute. repeat split.
Qed.
