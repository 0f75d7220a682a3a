(** * PropsOpenFloat: C65, the opening probability in f64 arithmetic. *)
From Coq Require Import ZArith Reals Lia Lra Bool List.
From Flocq Require Import Core IEEE754.BinarySingleNaN IEEE754.Binary IEEE754.Bits.
From Verif Require Import Base Spec BaseFacts LayMine Matrix Solve Utils UtilsProofs SolverSpec MatrixProofs EnumProofs SolveProofs PosProofs FloatTime FloatQuot FloatTrace BigNum FloatNear BigNumProofs BigBinom PropsBigNum
  Possibility PossSpec PossProofs PossSums PossCode PossMain PropsPoss PossBoard PropsOpening PossFloat PossFloatProofs PossFloatMain PossFloatPos PropsPossFloat OpenFloat.
From Verif Require PropsSolver.
From Verif Require Import MatrixMeaning EnumSolve.
Import ListNotations.
Open Scope nat_scope.
Local Notation val := (B2R 53 1024).
Local Notation fexp := (SpecFloat.fexp 53 1024).
Local Notation rnd := (round radix2 fexp ZnearestE).
Local Notation Real := Rdefinitions.R.
#[local] Opaque Nat.pow.

(** ** roundings with an absolute error *)
Definition u52 : Real := bpow radix2 (-52).
Lemma rnd_abs t : (Rabs t <= 2)%R -> (Rabs (rnd t - t) <= u52)%R.
Proof.
  intros H. assert (VE : Valid_exp fexp) by (apply FLT_exp_valid; reflexivity). pose proof (@error_le_half_ulp radix2 fexp VE (fun x => negb (Z.even x)) t) as E.
  change (Znearest (fun x => negb (Z.even x))) with ZnearestE in E. apply Rle_trans with (1 := E).
  assert (U : (ulp radix2 fexp t <= ulp radix2 fexp (bpow radix2 1))%R).
  { apply ulp_le; [exact VE|exact (FLT_exp_monotone (-1074) 53)|]. change (bpow radix2 1) with 2%R. rewrite (Rabs_pos_eq 2) by lra. exact H. }
  rewrite ulp_bpow in U. change (fexp (1 + 1)) with (-51)%Z in U. unfold u52.
  assert (E2 : (bpow radix2 (-51) = 2 * bpow radix2 (-52))%R) by (change 2%R with (bpow radix2 1); rewrite <- bpow_plus; reflexivity). lra.
Qed.
Lemma rnd_small t : (Rabs t <= 2)%R -> (Rabs (rnd t) < bpow radix2 1024)%R.
Proof.
  intros H. apply Rle_lt_trans with 4%R; [|replace 4%R with (bpow radix2 2) by (simpl; lra); apply bpow_lt; lia].
  pose proof (rnd_abs H) as E. assert (U : (u52 <= 1)%R) by (apply (bpow_le radix2 (-52) 0); lia).
  apply Rabs_le_inv in H, E. apply Rabs_le. lra.
Qed.
Lemma sub_abs x y : is_finite 53 1024 x = true -> is_finite 53 1024 y = true -> (Rabs (val x - val y) <= 2)%R ->
  is_finite 53 1024 (fsub x y) = true /\ (Rabs (val (fsub x y) - (val x - val y)) <= u52)%R.
Proof.
  intros Fx Fy H. pose proof (Bminus_correct 53 1024 (eq_refl : (0 < 53)%Z) (eq_refl : (53 < 1024)%Z) binop_nan_pl64 mode_NE x y Fx Fy) as HD.
  change (round_mode mode_NE) with ZnearestE in HD. rewrite Rlt_bool_true in HD by (now apply rnd_small). destruct HD as (V & F & _).
  change (Bminus 53 1024 eq_refl eq_refl binop_nan_pl64 mode_NE x y) with (fsub x y) in *. split; auto. rewrite V. now apply rnd_abs.
Qed.
Lemma mul_abs x y : is_finite 53 1024 x = true -> is_finite 53 1024 y = true -> (Rabs (val x * val y) <= 2)%R ->
  is_finite 53 1024 (fmul x y) = true /\ (Rabs (val (fmul x y) - val x * val y) <= u52)%R.
Proof.
  intros Fx Fy H. pose proof (Bmult_correct 53 1024 (eq_refl : (0 < 53)%Z) (eq_refl : (53 < 1024)%Z) binop_nan_pl64 mode_NE x y) as HD.
  change (round_mode mode_NE) with ZnearestE in HD. rewrite Rlt_bool_true in HD by (now apply rnd_small). destruct HD as (V & F & _).
  change (Bmult 53 1024 eq_refl eq_refl binop_nan_pl64 mode_NE x y) with (fmul x y) in *. rewrite Fx, Fy in F. split; auto. rewrite V. now apply rnd_abs.
Qed.
Lemma one_ok : val f_one = 1%R /\ is_finite 53 1024 f_one = true.
Proof. destruct (@exact_near 1%Z ltac:(lia)) as [N V]. split; [exact V|exact (nr_fin N)]. Qed.

(** the error of one probability *)
Definition tol (N : nat) : Real := (INR (N + 4 * 1000) * bpow radix2 (-50))%R.
Lemma tol_range N : N <= 2 ^ 38 -> (u52 * 1000 <= tol N <= / 2048)%R.
Proof.
  intros HN. apply Nat2Z.inj_le in HN. rewrite Nat2Z.inj_pow in HN. change (Z.of_nat 2 ^ Z.of_nat 38)%Z with (2 ^ 38)%Z in HN. unfold tol. rewrite INR_IZR_INZ, Nat2Z.inj_add.
  assert (E : (bpow radix2 (-50) = 4 * u52)%R) by (unfold u52; replace 4%R with (bpow radix2 2) by (simpl; lra); rewrite <- bpow_plus; reflexivity).
  assert (U : (0 < u52)%R) by apply bpow_gt_0. split.
  - assert (I : (4000 <= IZR (Z.of_nat N + Z.of_nat (4 * 1000)))%R) by (apply IZR_le; lia). rewrite E. nra.
  - assert (I : (IZR (Z.of_nat N + Z.of_nat (4 * 1000)) <= IZR (2 ^ 39))%R) by (apply IZR_le; lia). rewrite <- bpow_2 in I by lia.
    apply Rle_trans with (bpow radix2 39 * bpow radix2 (-50))%R; [apply Rmult_le_compat_r; [apply bpow_ge_0|exact I]|].
    rewrite <- bpow_plus. change (39 + -50)%Z with (-11)%Z. simpl. lra.
Qed.
(** One factor of the product: the true product [X] in [0, 1], the true probability of a mine [p]. *)
Lemma step_err N k (X p : Real) x f : N <= 2 ^ 38 -> (0 <= X <= 1)%R -> (0 <= p <= 1)%R ->
  is_finite 53 1024 x = true -> (Rabs (val x - X) <= INR k * (2 * tol N))%R -> k <= 9 ->
  is_finite 53 1024 f = true -> (Rabs (val f - p) <= p * tol N)%R ->
  is_finite 53 1024 (fmul x (fsub f_one f)) = true /\ (Rabs (val (fmul x (fsub f_one f)) - X * (1 - p)) <= INR (S k) * (2 * tol N))%R.
Proof.
  intros HN HX Hp Fx Ex Hk Ff Ef. destruct (tol_range HN) as [T1 T2]. set (e := tol N) in *. assert (U : (0 < u52)%R) by apply bpow_gt_0.
  destruct one_ok as [V1 F1]. assert (Hk9 : (0 <= INR k <= 9)%R) by (split; [apply pos_INR|replace 9%R with (INR 9) by (cbn; lra); now apply le_INR]).
  assert (E1 : (Rabs (val f - p) <= e)%R) by (apply Rle_trans with (1 := Ef); nra). apply Rabs_le_inv in E1.
  assert (Ek : (0 <= INR k * (2 * e) <= 18 * e)%R) by nra. set (E := (INR k * (2 * e))%R) in *. apply Rabs_le_inv in Ex.
  destruct (@sub_abs f_one f F1 Ff) as [Fd Ed]; [rewrite V1; apply Rabs_le; lra|]. rewrite V1 in Ed. apply Rabs_le_inv in Ed. set (d := val (fsub f_one f)) in *.
  assert (D : (- (e + u52) <= d - (1 - p) <= e + u52)%R) by lra.
  assert (P : (Rabs (val x * d - X * (1 - p)) <= E * (1 + e + u52) + (e + u52))%R).
  { replace (val x * d - X * (1 - p))%R with ((val x - X) * d + X * (d - (1 - p)))%R by ring. apply Rle_trans with (1 := Rabs_triang _ _). rewrite !Rabs_mult. apply Rplus_le_compat.
    - apply Rmult_le_compat; try apply Rabs_pos; apply Rabs_le; lra.
    - rewrite (Rabs_pos_eq X) by lra. assert (Rabs (d - (1 - p)) <= e + u52)%R by (apply Rabs_le; lra). assert (0 <= Rabs (d - (1 - p)))%R by apply Rabs_pos. nra. }
  assert (Q : (E * (e + u52) <= e / 4)%R) by nra.
  apply Rabs_le_inv in P. destruct (@mul_abs x (fsub f_one f) Fx Fd) as [Fm Em]. { fold d. apply Rabs_le. nra. }
  fold d in Em. split; auto. rewrite S_INR. replace ((INR k + 1) * (2 * e))%R with (E + 2 * e)%R by (unfold E; ring). apply Rabs_le_inv in Em. apply Rabs_le. lra.
Qed.

Lemma zone_length row column i j : length (zone row column i j) <= 9.
Proof. unfold zone, rng. rewrite prod_length, !seq_length. nia. Qed.

(** C65. The computed value is the probability up to an absolute error of 18 times the error of one
    probability (see C33; 7 * 10^-11 for up to 10^3 combinations of mine numbers). *)
Theorem C65_opening_probability_float : forall row column g M N c, satisfiable row column g -> proper row column g -> inb row column c -> (10 <= cell g c)%Z ->
  (forall q, inb row column q -> (cell g q <= 12)%Z) -> length (covered_cells row column g) <= 800 ->
  (forall h, rect row column h -> (forall q, inb row column q -> cell h q = cell g q \/ cell g q = 10%Z /\ cell h q = 12%Z /\ Spec.near c q) -> small_blocks h /\ few_choices h N) ->
  N <= 2 ^ 38 -> 1 <= M -> (Z.of_nat M < 2 ^ 53)%Z ->
  n_worlds_free row column g M (filter (nearb c) (positions row column)) <> 0 ->
  exists x, op_possibility_f g (f_of M) c = Ok x /\ is_finite 53 1024 x = true /\
    (Rabs (val x - INR (n_worlds_free row column g M (filter (nearb c) (positions row column))) / INR (n_worlds row column g M))
       <= 18 * (INR (N + 4 * 1000) * bpow radix2 (-50)))%R.
Proof.
  intros row column g M N c Hsat Hprop Hc Hopen Hvals Hcov8 Hsmall HN HM1 HM2 Hfree. pose proof Hsat as (Hr & H0 & _).
  set (Z0 := filter (nearb c) (positions row column)) in *. set (W := n_worlds row column g M).
  assert (HW : W <> 0). { pose proof (@free_le row column g M [] Z0 (fun q H => match H with end)) as L. rewrite free_nil in L. fold W in L. lia. }
  assert (RW : (0 < INR W)%R) by (apply lt_0_INR; lia).
  unfold op_possibility_f. rewrite (nrows_ok Hr), (ncolsR_ok Hr H0). cbn [bind].
  assert (Hz : forall q, In q (zone row column (fst c) (snd c)) <-> In q Z0).
  { intros q. unfold Z0. rewrite filter_In, in_positions, in_zone, <- surjective_pairing. destruct (nearb_spec c q); intuition discriminate. }
  destruct (free_pos Hfree) as (s0 & Hs0 & Hw0 & Hf0).
  assert (Hnoflag : forall q, In q Z0 -> cell g q <> 11%Z).
  { intros q Hq E. specialize (Hf0 q Hq). unfold with_flags, flaggedb in Hf0. rewrite E in Hf0. discriminate Hf0. }
  assert (Frac : forall L, (0 <= INR (n_worlds_free row column g M L) / INR W <= 1)%R).
  { intros L. pose proof (@free_le row column g M [] L (fun q H => match H with end)) as Le. rewrite free_nil in Le. fold W in Le. apply le_INR in Le.
    assert (0 <= INR (n_worlds_free row column g M L))%R by apply pos_INR. split.
    - unfold Rdiv. apply Rmult_le_pos; auto. left. now apply Rinv_0_lt_compat.
    - apply Rmult_le_reg_r with (INR W); auto. unfold Rdiv. rewrite Rmult_assoc, Rinv_l by lra. lra. }
  assert (G : forall todo k L h (x : binary64), incl todo Z0 -> incl L Z0 -> NoDup todo -> (forall q, In q todo -> ~ In q L) -> marked row column g L h -> k + length todo <= 9 ->
     is_finite 53 1024 x = true -> (Rabs (val x - INR (n_worlds_free row column g M L) / INR W) <= INR k * (2 * tol N))%R ->
     exists x' h' L', foldM (op_step_f g (f_of M) c) todo (Some x, h) = Ok (Some x', h') /\ is_finite 53 1024 x' = true /\
        (Rabs (val x' - INR (n_worlds_free row column g M L') / INR W) <= 9 * (2 * tol N))%R /\
        incl L' Z0 /\ forall q, In q Z0 -> cell g q = 10%Z -> In q todo \/ In q L -> In q L').
  { intros todo. induction todo as [|[i j] todo IH]; intros k L h x Hinc HL Nd Hdis Hm Hk Fx Ex.
    - exists x, h, L. split; [reflexivity|]. split; auto. split. { apply Rle_trans with (1 := Ex). destruct (tol_range HN) as [T1 _]. assert (0 < u52)%R by apply bpow_gt_0.
        cbn [length] in Hk. apply Rmult_le_compat_r; [lra|]. replace 9%R with (INR 9) by (cbn; lra). apply le_INR. lia. }
      split; auto. intros q _ _ [[]|H]. exact H.
    - inversion Nd as [|? ? Hn Nd']; subst. assert (Hq : In (i, j) Z0) by (apply Hinc; now left). cbn [length] in Hk.
      assert (Hb : inb row column (i, j)) by (unfold Z0 in Hq; apply filter_In in Hq as [Hq _]; now apply in_positions).
      cbn [foldM]. unfold op_step_f at 1. rewrite (get_ok Hr Hb). cbn [bind]. specialize (Hnoflag _ Hq) as N11. specialize (Hvals _ Hb) as Hle. specialize (Hprop _ Hb) as Hge.
      assert (Eopen : (cell g (i, j) <? 10)%Z && posb (i, j) c = false).
      { destruct (posb_spec (i, j) c) as [Ec|]; [|now rewrite andb_false_r]. subst c. destruct (Z.ltb_spec (cell g (i, j)) 10); auto. lia. }
      rewrite Eopen. destruct (Z.eqb_spec (cell g (i, j)) 11) as [|_]; [contradiction|]. cbn [orb].
      destruct (Z.eq_dec (cell g (i, j)) 10) as [E10|N10].
      + rewrite E10. cbn [Z.eqb Z.ltb Z.compare Pos.eqb Pos.compare Pos.compare_cont orb].
        assert (HLq : ~ In (i, j) L) by (apply Hdis; now left).
        pose proof Hm as (Hrh & H1 & H2).
        assert (EF : n_worlds row column h M = n_worlds_free row column g M L) by (rewrite <- free_nil, (marked_free Hm), app_nil_r; reflexivity).
        assert (HF : n_worlds_free row column g M L <> 0) by (pose proof (free_le row column g M HL); lia).
        assert (Hsh : satisfiable row column h).
        { split; auto. split; auto. exists (with_flags h s0). apply (@consistentb_iff row column h (with_flags h s0)). change (explains row column h s0 = true).
          rewrite (marked_explains Hm). - unfold worldb in Hw0. now apply andb_true_iff in Hw0 as [? _].
          - intros q HqL. specialize (Hf0 q (HL q HqL)). unfold with_flags in Hf0. now apply orb_false_iff in Hf0 as [_ ?]. }
        assert (Hph : proper row column h).
        { intros q Hbq. destruct (in_dec pos_eq_dec q L) as [Hi|Hi]; [destruct (H1 q Hi) as (_ & _ & ->); lia|rewrite (H2 q Hi); auto]. }
        assert (Hsm : small_blocks h /\ few_choices h N).
        { apply Hsmall; auto. intros q Hbq. destruct (in_dec pos_eq_dec q L) as [Hi|Hi]; [right|left; auto]. destruct (H1 q Hi) as (_ & E1 & E2). split; auto. split; auto.
          apply HL in Hi. unfold Z0 in Hi. apply filter_In in Hi as [_ Hi]. now destruct (nearb_spec c q). }
        assert (Hc8 : length (covered_cells row column h) <= 800).
        { rewrite (marked_covered Hm). refine (Nat.le_trans _ _ _ _ Hcov8). apply NoDup_incl_length; [apply NoDup_filter, NoDup_filter, NoDup_positions|apply incl_filter]. }
        assert (Hcov : cell h (i, j) = 10%Z) by (rewrite (H2 _ HLq); exact E10).
        destruct (@C33_onboard row column h M N M Hsh Hph (proj1 Hsm) Hc8 (proj2 Hsm) HN HM1 HM2 (le_n _)) as (P & range & EP & _ & HP); [rewrite EF; exact HF|].
        destruct (HP i j Hb) as (f & Ef & _ & Hpf & _). rewrite EP, Ef. cbn [bind]. destruct (Hpf Hcov) as [F1 _]. rewrite EF in F1. specialize (F1 HF). destruct F1 as [Ff Efr].
        assert (Eat : n_worlds_at row column h M (i, j) = n_worlds_mine row column h M (i, j)).
        { unfold n_worlds_at, n_worlds_mine. apply count_ext. intros s _. unfold with_flags, flaggedb. rewrite Hcov. reflexivity. }
        rewrite Eat in Efr.
        pose proof (free_one row column h M (i, j)) as FO. rewrite EF, (marked_free Hm) in FO.
        rewrite (set_ok _ Hrh Hb). cbn [bind].
        set (F := n_worlds_free row column g M L) in *. set (F' := n_worlds_free row column g M (L ++ [(i, j)])) in *. set (X := n_worlds_mine row column h M (i, j)) in *.
        assert (RF : (0 < INR F)%R) by (apply lt_0_INR; lia).
        assert (HX : (0 <= INR X / INR F <= 1)%R).
        { assert (INR X <= INR F)%R by (apply le_INR; lia). assert (0 <= INR X)%R by apply pos_INR. split.
          - unfold Rdiv. apply Rmult_le_pos; auto. left. now apply Rinv_0_lt_compat.
          - apply Rmult_le_reg_r with (INR F); auto. unfold Rdiv. rewrite Rmult_assoc, Rinv_l by lra. lra. }
        destruct (@step_err N k (INR F / INR W) (INR X / INR F) x f HN (Frac L) HX Fx Ex ltac:(lia) Ff Efr) as [Fx' Ex'].
        assert (EX : (INR F / INR W * (1 - INR X / INR F) = INR F' / INR W)%R).
        { assert (E : (INR F = INR F' + INR X)%R) by (rewrite <- FO, plus_INR; reflexivity). replace (1 - INR X / INR F)%R with (INR F' / INR F)%R by (rewrite E; field; lra). field. lra. }
        rewrite EX in Ex'.
        destruct (IH (S k) (L ++ [(i, j)]) (upd h (i, j) 12%Z) (fmul x (fsub f_one f))) as (x' & h' & L' & E & Hfin & HP' & HL' & Hco).
        * intros q Hi. apply Hinc. now right.
        * intros q Hi. apply in_app_iff in Hi as [Hi|[<-|[]]]; auto.
        * exact Nd'.
        * intros q Hi Hi2. apply in_app_iff in Hi2 as [Hi2|[<-|[]]]; [apply (Hdis q); auto; now right|contradiction].
        * split; [now apply rect_upd|]. split.
          -- intros q Hi. apply in_app_iff in Hi as [Hi|[<-|[]]].
             ++ destruct (H1 q Hi) as (X1 & X2 & X3). split; auto. split; auto. rewrite cell_upd_neq; auto. intros EE. subst q. contradiction.
             ++ split; auto. split; auto. eapply cell_upd_eq; eauto.
          -- intros q Hi. rewrite in_app_iff in Hi. rewrite cell_upd_neq; [apply H2; tauto|]. intros <-. apply Hi. right. now left.
        * lia.
        * exact Fx'.
        * exact Ex'.
        * exists x', h', L'. split; [exact E|]. split; auto. split; auto. split; auto. intros q X1 X2 [[<-|X3]|X3]; apply Hco; auto; right; apply in_app_iff; [right; now left|now left].
      + assert (Eother : (cell g (i, j) =? 12)%Z || (cell g (i, j) <? 10)%Z = true).
        { destruct (Z.eqb_spec (cell g (i, j)) 12), (Z.ltb_spec (cell g (i, j)) 10); auto. lia. }
        rewrite Eother. cbn [bind].
        destruct (IH k L h x) as (x' & h' & L' & E & Hfin & HP' & HL' & Hco); auto.
        * intros q Hi. apply Hinc. now right.
        * intros q Hi. apply Hdis. now right.
        * lia.
        * exists x', h', L'. split; [exact E|]. split; auto. split; auto. split; auto. intros q X1 X2 [[<-|X3]|X3]; auto. contradiction. }
  destruct one_ok as [V1 F1].
  destruct (G (zone row column (fst c) (snd c)) 0 [] g f_one) as (x & h & L & E & Hfin & HP & HL & Hco).
  - intros q Hq. now apply Hz.
  - intros q [].
  - apply NoDup_zone.
  - intros q _ [].
  - split; auto. split; [intros q []|auto].
  - apply zone_length.
  - exact F1.
  - rewrite free_nil, V1. fold W. replace (1 - INR W / INR W)%R with 0%R by (field; lra). rewrite Rabs_R0. cbn [INR]. lra.
  - rewrite E. cbn [bind]. exists x. split; auto. split; auto. unfold tol in HP.
    replace (n_worlds_free row column g M Z0) with (n_worlds_free row column g M L); [lra|].
    unfold n_worlds_free. apply count_ext. intros s Hs. f_equal. apply eq_true_iff_eq. rewrite !forallb_forall. split; intros H q Hq; [|apply H; auto].
    destruct (Z.eq_dec (cell g q) 10) as [E10|N10]; [apply H, Hco; auto; left; now apply Hz|].
    unfold with_flags, flaggedb, mines_at. destruct (Z.eqb_spec (cell g q) 11) as [E11|_]; [destruct (Hnoflag q Hq E11)|]. cbn [orb].
    rewrite mem_false; auto. intros Hi. apply (subs_incl Hs) in Hi. unfold covered_cells in Hi. apply filter_In in Hi as [_ Hi]. unfold coveredb in Hi. apply Z.eqb_eq in Hi. contradiction.
Qed.
Print Assumptions C65_opening_probability_float.
(** For a list of cells: one result after the other. *)
Corollary C65_cells_float : forall g M cells l, op_possibilities_f64 g M cells = Ok l ->
  length l = length cells /\ forall i c, nth_error cells i = Some c -> exists x, nth_error l i = Some x /\ op_possibility_f g M c = Ok x.
Proof.
  intros g M cells. unfold op_possibilities_f64. induction cells as [|c cells IH]; cbn [mapM]; intros l E.
  - injection E as <-. split; auto. intros [|i] c H; discriminate H.
  - apply bind_ok in E as (f & E1 & E). apply bind_ok in E as (l' & E2 & E). injection E as <-. destruct (IH l' E2) as [L N]. split; [cbn; congruence|].
    intros [|i] d Hd; cbn in *; [injection Hd as ->; eauto|eauto].
Qed.
Print Assumptions C65_cells_float.

(** Three covered cells, two mines, the middle cell: NaN instead of 0, in f64 arithmetic too. *)
Theorem C65_nan_refuted_float : exists g M c, satisfiable 1 3 g /\ inb 1 3 c /\ n_worlds 1 3 g M = 3 /\
  n_worlds_free 1 3 g M (filter (nearb c) (positions 1 3)) = 0 /\ exists x, op_possibility_f g (f_of M) c = Ok x /\ is_nan 53 1024 x = true.
Proof.
  exists [[10; 10; 10]]%Z, 2, (0, 1). split; [apply (@PropsSolver.satisfiable_ok 1 3 _ (fun _ => false)); [split; [reflexivity|repeat constructor]|lia|reflexivity]|].
  split; [split; cbn; lia|]. split; [vm_compute; reflexivity|]. split; [vm_compute; reflexivity|].
  destruct (op_possibility_f [[10; 10; 10]]%Z (f_of 2) (0, 1)) as [x| | |] eqn:E; [|exfalso; revert E; vm_compute; discriminate ..].
  exists x. split; auto. assert (X : match op_possibility_f [[10; 10; 10]]%Z (f_of 2) (0, 1) with Ok x => is_nan 53 1024 x = true | _ => False end) by (vm_compute; reflexivity).
  rewrite E in X. exact X.
Qed.
Print Assumptions C65_nan_refuted_float.

(** ** Small positions: at most 38 covered cells *)
Lemma prod_pow (l : list nat) : fold_right Nat.mul 1 (map (fun n => n + 1) l) <= 2 ^ fold_right Nat.add 0 l.
Proof.
  induction l as [|n l IH]; [cbn; auto|]. cbn [map fold_right]. rewrite Nat.pow_add_r. apply Nat.mul_le_mono; auto.
  clear. induction n as [|n IH]; [auto|]. rewrite Nat.pow_succ_r'. lia.
Qed.
Lemma few_covered_choices row column g n : rect row column g -> 0 < row -> length (covered_cells row column g) <= n -> few_choices g (2 ^ n).
Proof.
  intros Hr H0 Hl bl k1 k2 E. destruct (refresh_matrixs_partition Hr H0) as (bl' & k1' & k2' & ns & E' & _ & _ & _ & Nd & Hf & _).
  rewrite E in E'. injection E' as <- _ _. rewrite <- (map_map (fun B => length (vars B)) (fun n => n + 1)). apply Nat.le_trans with (1 := prod_pow _). apply Nat.pow_le_mono_r; [lia|].
  refine (Nat.le_trans _ _ _ _ Hl). replace (fold_right Nat.add 0 (map (fun B => length (vars B)) bl)) with (length (concat (map vars bl))).
  2:{ clear. induction bl as [|B bl IH]; auto. cbn [map concat fold_right]. rewrite app_length. congruence. }
  apply NoDup_incl_length; [exact Nd|]. intros q Hq. apply in_concat in Hq as (l & Hin & Hq). apply in_map_iff in Hin as (B & <- & HB).
  assert (Hc : front_cell row column g q) by (apply Hf, in_vars; eauto). destruct Hc as (A1 & A2 & _). unfold covered_cells. apply filter_In. split; [now apply in_positions|].
  unfold coveredb. rewrite A2. reflexivity.
Qed.
Lemma marked_fewer row column g h (P : pos -> Prop) : (forall q, inb row column q -> cell h q = cell g q \/ cell g q = 10%Z /\ cell h q = 12%Z /\ P q) ->
  length (covered_cells row column h) <= length (covered_cells row column g).
Proof.
  intros Hh. apply NoDup_incl_length; [apply NoDup_filter, NoDup_positions|].
  unfold covered_cells. intros q Hq. apply filter_In in Hq as [A1 A2]. apply filter_In. split; auto. apply in_positions in A1. unfold coveredb in *. apply Z.eqb_eq in A2.
  destruct (Hh q A1) as [E|(E & _)]; apply Z.eqb_eq; congruence.
Qed.
(** With [n <= 38] covered cells: an error of at most 18 (2^n + 4000) / 2^50 (below 10^-7 for 20 cells). *)
Corollary C65_small_float : forall row column g M n c, satisfiable row column g -> inb row column c -> (10 <= cell g c)%Z ->
  (forall q, inb row column q -> (0 <= cell g q <= 12)%Z) -> length (covered_cells row column g) <= n -> n <= 38 -> 1 <= M -> (Z.of_nat M < 2 ^ 53)%Z ->
  n_worlds_free row column g M (filter (nearb c) (positions row column)) <> 0 ->
  exists x, op_possibility_f g (f_of M) c = Ok x /\ is_finite 53 1024 x = true /\
    (Rabs (val x - INR (n_worlds_free row column g M (filter (nearb c) (positions row column))) / INR (n_worlds row column g M))
       <= 18 * (INR (2 ^ n + 4 * 1000) * bpow radix2 (-50)))%R.
Proof.
  intros row column g M n c Hsat Hc Hopen Hv Hl Hn HM1 HM2 Hf. pose proof Hsat as (_ & H0 & _).
  refine (@C65_opening_probability_float row column g M (2 ^ n) c Hsat (fun q Hq => proj1 (Hv q Hq)) Hc Hopen (fun q Hq => proj2 (Hv q Hq)) _ _ _ HM1 HM2 Hf).
  - lia.
  - intros h Hr Hh. pose proof (marked_fewer Hh) as L. split; [apply (few_covered_small Hr H0); lia|apply (few_covered_choices Hr H0); lia].
  - apply Nat.pow_le_mono_r; [discriminate|exact Hn].
Qed.
Print Assumptions C65_small_float.
Example C65_float_case : satisfiable 3 4 poss_demo /\ length (covered_cells 3 4 poss_demo) <= 9 /\
  n_worlds_free 3 4 poss_demo 2 (filter (nearb (2, 0)) (positions 3 4)) = 1 /\ n_worlds 3 4 poss_demo 2 = 3 /\
  match op_possibilities_f64 poss_demo (f_of 2) [(2, 0); (0, 0)] with
  | Ok l => map bits_of_b64 l = map (fun k => (bits_of_b64 (fdiv (f_of 1) (f_of 3)) + k)%Z) [1; 1]%Z
  | _ => False
  end.
Proof.
  split; [exact poss_demo_sat|]. split; [vm_compute; auto|]. split; [vm_compute; reflexivity|]. split; [vm_compute; reflexivity|]. vm_compute. reflexivity.
Qed.
