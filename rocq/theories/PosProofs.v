(** * PosProofs: the blocks of a position, and every sequence of deductions on them. *)
From Verif Require Import Base Spec BaseFacts Matrix Solve SolverSpec MatrixProofs LinFacts DirectProofs ChunkProofs SolveProofs CombineProofs TableProofs EnumProofs EnumBlock EnumSolve.
Open Scope Z_scope.

Lemma coef_bit (f : pos -> bool) x q : bit (coef (map (fun q => if f q then 1 else 0) x) x q).
Proof.
  destruct (mem_pos_spec q x) as [Hi|Hi]; [rewrite coef_map by auto; destruct (f q); [now right|now left]|]. rewrite coef_out by auto. now left.
Qed.

Section P.
Variables (row column : nat) (g : board).
Hypothesis Hrect : rect row column g.
Hypothesis Hrow : (0 < row)%nat.

Lemma describes_good nums B : describes row column g nums B -> Forall (front_number row column g) nums -> nums <> [] ->
  good_block B /\ pre_block row column B.
Proof.
  intros (Nd & Hin & He) Hf Hne. rewrite Forall_forall in Hf.
  set (eqn := fun n => (map (fun q => if nearb n q then 1 else 0) (vars B), cell g n - Z.of_nat (adj_count row column (flaggedb g) n))) in *.
  assert (Hg : good (vars B) (eqs B)).
  { constructor; auto.
    - rewrite He, Forall_map. apply Forall_forall. intros n Hn. unfold wfe, eqn. cbn [fst]. split; [apply map_length|]. intros q. apply coef_bit.
    - intros q Hq. pose proof Hq as Hq'. apply Hin in Hq' as (H1 & H2 & n & Hn & Hnq). exists (eqn n). split; [rewrite He; now apply in_map|].
      unfold eqn. cbn [fst]. rewrite coef_map by auto. destruct (nearb_spec n q); [auto|tauto].
    - rewrite He, Forall_map. apply Forall_forall. intros n Hn. unfold light, eqn. cbn [fst].
      destruct (Hf n Hn) as (Hb & Hnum & _).
      rewrite (@sumz_ext _ _ (fun q => b2z (nearb n q))). 2:{ intros q Hq. rewrite coef_map by auto. reflexivity. }
      rewrite sumz_count.
      assert (E : (count (nearb n) (vars B) <= adj_count row column (coveredb g) n)%nat).
      { unfold adj_count. apply count_sub; [auto|apply NoDup_positions|]. intros q Hq Hnq. apply Hin in Hq as (H1 & H2 & _). split; [now apply in_positions|].
        unfold adjb, coveredb. rewrite Hnq. rewrite H2. destruct (posb_spec n q) as [->|]; cbn; auto. unfold number in Hnum. lia. }
      pose proof (adj_count_le row column (coveredb g) n). lia.
    - rewrite He, Forall_map. apply Forall_forall. intros n Hn. destruct (Hf n Hn) as (Hb & Hnum & q & H1 & H2 & H3).
      assert (Hq : In q (vars B)) by (apply Hin; repeat split; try apply H1; eauto). exists q. split; auto. unfold eqn. cbn [fst]. rewrite coef_map by auto.
      destruct (nearb_spec n q); [auto|tauto]. }
  assert (Hgb : good_block B) by (split; auto; rewrite He; destruct nums; [contradiction|discriminate]).
  split; auto. apply good_pre; auto. apply Forall_forall. intros q Hq. apply Hin in Hq. tauto.
Qed.

Lemma describes_disjoint numss bl : Forall2 (describes row column g) numss bl ->
  ForallOrdPairs (fun ns1 ns2 => forall n1 n2, In n1 ns1 -> In n2 ns2 -> ~ share row column g n1 n2) numss -> NoDup (concat (map vars bl)).
Proof.
  induction 1 as [|ns B numss bl HD F IH]; intros Hp; cbn [map concat]; [constructor|]. inversion Hp; subst. apply NoDup_app_disj.
  - apply HD.
  - now apply IH.
  - intros q Hq Hq'. apply in_concat in Hq' as (x & Hx & Hqx). apply in_map_iff in Hx as (B' & <- & HB').
    destruct (Forall2_in_r F HB') as (ns' & Hns' & HD'). destruct HD as (_ & HI & _), HD' as (_ & HI' & _).
    destruct (proj1 (HI q) Hq) as (A1 & A2 & n1 & A3 & A4). destruct (proj1 (HI' q) Hqx) as (_ & _ & n2 & B3 & B4).
    rewrite Forall_forall in H1. apply (H1 ns' Hns' n1 n2 A3 B3). exists q. auto.
Qed.

(** what refresh_matrixs returns *)
Theorem refresh_blocks : exists bl k1 k2, refresh_matrixs g = Ok (bl, k1, k2) /\
  Forall good_block bl /\ Forall (pre_block row column) bl /\ NoDup (concat (map vars bl)) /\
  (forall q, In q (concat (map vars bl)) <-> front_cell row column g q) /\
  (forall v, sats v bl <-> forall n, front_number row column g n -> number_ok row column g v n).
Proof.
  destruct (refresh_matrixs_ok Hrect Hrow) as (bl & numss & E & F & Hne & P & Hsep).
  assert (Hfr : forall ns n, In ns numss -> In n ns -> front_number row column g n).
  { intros ns n Hns Hn. assert (In n (concat numss)) by (apply in_concat; eauto). eapply Permutation_in in H; [|exact P].
    apply filter_In in H as [H1 H2]. apply in_positions in H1. now apply front_numberb_iff in H2. }
  assert (Hall : forall n, front_number row column g n -> exists ns, In ns numss /\ In n ns).
  { intros n Hn. assert (In n (concat numss)). { eapply Permutation_in; [symmetry; exact P|]. apply filter_In. split; [apply in_positions, Hn|]. apply front_numberb_iff; auto. apply Hn. }
    apply in_concat in H. exact H. }
  assert (HF : Forall2 (fun ns B => describes row column g ns B /\ Forall (front_number row column g) ns /\ ns <> []) numss bl).
  { rewrite Forall_forall in Hne. clear - F Hne Hfr. induction F as [|ns B l l' HD F IH]; constructor.
    - split; auto. split; [apply Forall_forall; intros n; apply Hfr; now left|apply Hne; now left].
    - apply IH; [intros ns0 H1; apply Hne; now right|intros ns0 n0 H1; apply Hfr; now right]. }
  do 3 eexists. split; [exact E|].
  assert (Hgp : Forall (fun B => good_block B /\ pre_block row column B) bl).
  { clear - HF Hrow Hrect. induction HF as [|ns B l l' (H1 & H2 & H3) F IH]; constructor; auto. eapply describes_good; eauto. }
  split; [eapply Forall_impl; [|exact Hgp]; now intros B0 [? ?]|]. split; [eapply Forall_impl; [|exact Hgp]; now intros B0 [? ?]|].
  split; [eapply describes_disjoint; eauto|]. split.
  - intros q. split.
    + intros Hq. apply in_concat in Hq as (x & Hx & Hq). apply in_map_iff in Hx as (B & <- & HB). destruct (Forall2_in_r HF HB) as (ns & Hns & (_ & HI & _) & Hfn & _).
      destruct (proj1 (HI q) Hq) as (H1 & H2 & n & Hn & Hnq). rewrite Forall_forall in Hfn. destruct (Hfn n Hn) as (F1 & F2 & _). split; auto. split; auto. exists n. auto.
    + intros (H1 & H2 & n & Hn & Hnq & Hnum). destruct (Hall n) as (ns & Hns & Hin). { split; auto. split; auto. exists q. auto. }
      destruct (Forall2_in_l HF Hns) as (B & HB & (_ & HI & _) & _). apply in_concat. exists (vars B). split; [now apply in_map|]. apply HI. repeat split; try apply H1; auto. eauto.
  - intros v. unfold sats. rewrite Forall_forall. split.
    + intros Hs n Hn. destruct (Hall n Hn) as (ns & Hns & Hin). destruct (Forall2_in_l HF Hns) as (B & HB & HD & Hfn & _).
      specialize (Hs B HB).
      assert (Hfn' : Forall (fun n => inb row column n /\ number g n) ns) by (eapply Forall_impl; [|exact Hfn]; intros a Ha; split; apply Ha).
      eapply describes_sat in Hs; eauto. rewrite Forall_forall in Hs. auto.
    + intros H B HB. destruct (Forall2_in_r HF HB) as (ns & Hns & HD & Hfn & _).
      assert (Hfn' : Forall (fun n => inb row column n /\ number g n) ns) by (eapply Forall_impl; [|exact Hfn]; intros a Ha; split; apply Ha).
      eapply describes_sat; eauto. eapply Forall_impl; [|exact Hfn]. intros a Ha. auto.
Qed.
End P.

(** ** filling a position with a solution *)
Definition fill (g : board) (v : placement) : placement := fun p => flaggedb g p || coveredb g p && v p.
Lemma fill_consistent row column g v m0 : consistent row column g m0 ->
  (forall n, front_number row column g n -> number_ok row column g v n) -> consistent row column g (fill g v).
Proof.
  intros H0 Hv p Hp. unfold fill, flaggedb, coveredb. split; [|split].
  - intros ->. reflexivity.
  - intros H1 H2. destruct (Z.eqb_spec (cell g p) 11), (Z.eqb_spec (cell g p) 10); try tauto; reflexivity.
  - intros Hn.
    assert (Hok : number_ok row column g v p).
    { destruct (existsb (fun q => nearb p q && (cell g q =? 10)) (positions row column)) eqn:E.
      - apply Hv. apply existsb_exists in E as (q & Hq & Hc). apply in_positions in Hq. apply andb_true_iff in Hc as [C1 C2]. split; auto. split; auto.
        exists q. split; auto. split; [now destruct (nearb_spec p q)|now apply Z.eqb_eq].
      - pose proof (consistent_number_ok H0 Hp Hn) as H1. unfold number_ok in *. rewrite H1. do 2 f_equal. unfold adj_count. apply count_ext. intros q Hq.
        destruct (adjb p q) eqn:Ea; [|reflexivity]. unfold coveredb. destruct (Z.eqb_spec (cell g q) 10) as [Eq|]; [|reflexivity]. exfalso.
        rewrite <- not_true_iff_false in E. apply E. apply existsb_exists. exists q. split; auto. unfold adjb in Ea. apply andb_true_iff in Ea as [_ Ea]. rewrite Ea, Eq. reflexivity. }
    unfold number_ok in Hok. rewrite Hok, <- Nat2Z.inj_add. f_equal. unfold adj_count.
    rewrite (@count_split _ (fun q => adjb p q && (flaggedb g q || coveredb g q && v q)) (flaggedb g)).
    f_equal; apply count_ext; intros q _; unfold flaggedb, coveredb; destruct (adjb p q), (Z.eqb_spec (cell g q) 11), (Z.eqb_spec (cell g q) 10), (v q); cbn; auto; lia.
Qed.
Lemma front_determined row column g m0 p b : consistent row column g m0 -> cell g p = 10 ->
  ((forall v, (forall n, front_number row column g n -> number_ok row column g v n) -> v p = b) <-> determined row column g p b).
Proof.
  intros H0 Hc. split.
  - intros H m Hm. apply H. intros n (Hb & Hn & _). now apply consistent_number_ok.
  - intros H v Hv. specialize (H _ (fill_consistent H0 Hv)). unfold fill, flaggedb, coveredb in H. rewrite Hc in H. exact H.
Qed.

(** ** sequences of deductions *)

Lemma solve_direct_call row column v0 bl bd : Forall (pre_block row column) bl -> rect row column bd -> sats v0 bl ->
  exists bl' n i bd', solve_direct bl bd = Ok (bl', n, i, bd') /\
    deduced bl n i bl' /\ marks row column v0 n i bd bd' /\ Forall good_block bl' /\ Forall (pre_block row column) bl'.
Proof.
  intros H1 H2 H3. destruct (solve_direct_ok H1 H2 H3) as (bl' & n & i & bd' & E & H). exists bl', n, i, bd'. split; auto.
  unfold solve_direct. rewrite E. reflexivity.
Qed.
Lemma solve_minus_call row column v0 bl bd : Forall (pre_block row column) bl -> rect row column bd -> sats v0 bl ->
  exists bl' n i bd', solve_minus bl bd = Ok (bl', n, i, bd') /\
    deduced bl n i bl' /\ marks row column v0 n i bd bd' /\ Forall good_block bl' /\ Forall (pre_block row column) bl'.
Proof.
  intros H1 H2 H3. destruct (solve_minus_ok H1 H2 H3) as (bl' & n & i & bd' & E & H). exists bl', n, i, bd'. split; auto.
  unfold solve_minus. rewrite E. reflexivity.
Qed.

Record ded_inv (row column : nat) (g : board) (bl : list block) (bd : board) (N I : list pos) : Prop := {
  di_good : Forall good_block bl;
  di_pre : Forall (pre_block row column) bl;
  di_nodup : NoDup (N ++ I ++ concat (map vars bl));
  di_cells : forall q, In q (N ++ I ++ concat (map vars bl)) <-> front_cell row column g q;
  di_sats : forall v, (forall n, front_number row column g n -> number_ok row column g v n) <->
               (forall p, In p I -> v p = true) /\ (forall p, In p N -> v p = false) /\ sats v bl;
  di_marks : forall m, consistent row column g m -> marks row column m N I g bd
}.
Lemma consistent_front row column g m : consistent row column g m -> forall n, front_number row column g n -> number_ok row column g m n.
Proof. intros H n (Hb & Hn & _). now apply consistent_number_ok. Qed.

Lemma ded_step row column g bl bd N I bl' n i bd' : ded_inv row column g bl bd N I ->
  (forall m, consistent row column g m -> marks row column m n i bd bd') ->
  deduced bl n i bl' -> Forall good_block bl' -> Forall (pre_block row column) bl' ->
  ded_inv row column g bl' bd' (N ++ n) (I ++ i).
Proof.
  intros D HM Hd Hg Hp.
  assert (P : Permutation ((N ++ n) ++ (I ++ i) ++ concat (map vars bl')) (N ++ I ++ concat (map vars bl))).
  { rewrite (dd_perm Hd). permut. }
  constructor; auto.
  - eapply Permutation_NoDup; [symmetry; exact P|apply D].
  - intros q. rewrite <- (di_cells D q). split; apply Permutation_in; auto. now symmetry.
  - intros v. rewrite (di_sats D v), (dd_sat Hd v). split.
    + intros (A & B & C & E & F). repeat split; auto; intros p Hq; apply in_app_iff in Hq as [|]; auto.
    + intros (A & B & C). repeat split; auto; intros p Hq; (apply A || apply B); apply in_app_iff; auto.
  - intros m Hm. eapply marks_trans; [apply (di_marks D Hm)|auto].
Qed.

Lemma deductions_inv row column g m0 bl bd N I : rect row column g -> (0 < row)%nat -> consistent row column g m0 ->
  deductions g bl bd N I -> ded_inv row column g bl bd N I.
Proof.
  intros Hrect Hrow H0. induction 1 as [bl k1 k2 E|bl bd N I bl' n i bd' D IH E|bl bd N I bl' n i bd' D IH E].
  - destruct (refresh_blocks Hrect Hrow) as (bl2 & k3 & k4 & E2 & G & P & Nd & C & S). rewrite E2 in E. injection E as <- _ _.
    constructor; auto. + intros v. rewrite <- S. split; [intros H; repeat split; auto; intros p []|tauto]. + intros m _. now apply marks_nil.
  - assert (K : forall m, consistent row column g m -> marks row column m n i bd bd' /\ deduced bl n i bl' /\ Forall good_block bl' /\ Forall (pre_block row column) bl').
    { intros m Hm. destruct (@solve_direct_call row column m bl bd) as (bl2 & n2 & i2 & bd2 & E2 & H1 & H2 & H3 & H4).
      - apply IH. - apply (mk_rect (di_marks IH Hm)). - apply (di_sats IH). now apply consistent_front.
      - rewrite E2 in E. injection E as <- <- <- <-. auto. }
    destruct (K m0 H0) as (_ & K1 & K2 & K3). apply (ded_step IH); auto. intros m Hm. now apply K.
  - assert (K : forall m, consistent row column g m -> marks row column m n i bd bd' /\ deduced bl n i bl' /\ Forall good_block bl' /\ Forall (pre_block row column) bl').
    { intros m Hm. destruct (@solve_minus_call row column m bl bd) as (bl2 & n2 & i2 & bd2 & E2 & H1 & H2 & H3 & H4).
      - apply IH. - apply (mk_rect (di_marks IH Hm)). - apply (di_sats IH). now apply consistent_front.
      - rewrite E2 in E. injection E as <- <- <- <-. auto. }
    destruct (K m0 H0) as (_ & K1 & K2 & K3). apply (ded_step IH); auto. intros m Hm. now apply K.
Qed.
Lemma marks_marked_with row column m N I g bd : marks row column m N I g bd -> marked_with row column g N I bd.
Proof.
  intros M. split; [apply M|]. pose proof (mk_cell M) as C. split; [|split].
  - intros p Hp. rewrite C. now rewrite mem_true.
  - intros p Hp. rewrite C. rewrite (@mem_true p N) by auto. rewrite mem_false; auto. intros Hi. pose proof (mk_is M Hi). pose proof (mk_not M Hp). congruence.
  - intros p H1 H2. rewrite C. now rewrite !mem_false.
Qed.

Theorem direct_call row column g bl bd N I : satisfiable row column g -> deductions g bl bd N I ->
  exists bl' n i bd', solve_direct bl bd = Ok (bl', n, i, bd') /\ deductions g bl' bd' (N ++ n) (I ++ i) /\
    (forall p, In p n -> determined row column g p false) /\ (forall p, In p i -> determined row column g p true) /\
    marked_with row column bd n i bd'.
Proof.
  intros (Hr & H0 & m0 & Hm0) D. pose proof (deductions_inv Hr H0 Hm0 D) as IH.
  destruct (@solve_direct_call row column m0 bl bd) as (bl2 & n2 & i2 & bd2 & E2 & H1 & H2 & H3 & H4).
  - apply IH. - apply (mk_rect (di_marks IH Hm0)). - apply (di_sats IH). now apply consistent_front.
  - exists bl2, n2, i2, bd2. split; auto. pose proof (ded_direct D E2) as D'. split; auto. pose proof (deductions_inv Hr H0 Hm0 D') as IH'.
    split; [|split].
    + intros p Hp m Hm. apply (mk_not (di_marks IH' Hm)). apply in_app_iff. auto.
    + intros p Hp m Hm. apply (mk_is (di_marks IH' Hm)). apply in_app_iff. auto.
    + eapply marks_marked_with; eauto.
Qed.
Theorem minus_call row column g bl bd N I : satisfiable row column g -> deductions g bl bd N I ->
  exists bl' n i bd', solve_minus bl bd = Ok (bl', n, i, bd') /\ deductions g bl' bd' (N ++ n) (I ++ i) /\
    (forall p, In p n -> determined row column g p false) /\ (forall p, In p i -> determined row column g p true) /\
    marked_with row column bd n i bd'.
Proof.
  intros (Hr & H0 & m0 & Hm0) D. pose proof (deductions_inv Hr H0 Hm0 D) as IH.
  destruct (@solve_minus_call row column m0 bl bd) as (bl2 & n2 & i2 & bd2 & E2 & H1 & H2 & H3 & H4).
  - apply IH. - apply (mk_rect (di_marks IH Hm0)). - apply (di_sats IH). now apply consistent_front.
  - exists bl2, n2, i2, bd2. split; auto. pose proof (ded_minus D E2) as D'. split; auto. pose proof (deductions_inv Hr H0 Hm0 D') as IH'.
    split; [|split].
    + intros p Hp m Hm. apply (mk_not (di_marks IH' Hm)). apply in_app_iff. auto.
    + intros p Hp m Hm. apply (mk_is (di_marks IH' Hm)). apply in_app_iff. auto.
    + eapply marks_marked_with; eauto.
Qed.

Theorem enumerate_call row column g bl bd N I : satisfiable row column g -> deductions g bl bd N I ->
  exists n i, solve_enumerate bl = Ok (n, i) /\
    (forall p, In p n -> front_cell row column g p /\ determined row column g p false) /\
    (forall p, In p i -> front_cell row column g p /\ determined row column g p true) /\
    (Forall (fun B => length (vars B) <= ENUM_LIMIT)%nat bl ->
       (forall p, In p (N ++ n) <-> front_cell row column g p /\ determined row column g p false) /\
       (forall p B, In B bl -> In p (vars B) -> alone B p -> determined row column g p true -> In p i)).
Proof.
  intros (Hr & H0 & m0 & Hm0) D. pose proof (deductions_inv Hr H0 Hm0 D) as IH.
  destruct (Forall_dec (fun B => length (vars B) <= ENUM_LIMIT)%nat (fun B => le_dec _ _) bl) as [Hl|Hl].
  2:{ exists [], []. split.
      - unfold solve_enumerate. replace (existsb (fun B => (ENUM_LIMIT <? length (vars B))%nat) bl) with true; auto. symmetry.
        apply neg_Forall_Exists_neg in Hl; [|intros B; apply le_dec]. apply Exists_exists in Hl as (B & HB & H). apply existsb_exists. exists B. split; auto. apply Nat.ltb_lt. lia.
      - split; [intros p []|]. split; [intros p []|]. intros H. contradiction. }
  assert (Hs : sats m0 bl) by (apply (di_sats IH); now apply consistent_front).
  assert (Nd : NoDup (concat (map vars bl))) by (pose proof (di_nodup IH) as Nd; now apply NoDup_app_r, NoDup_app_r in Nd).
  destruct (@solve_enumerate_ok bl m0 (di_good IH) Nd Hs Hl) as (n & i & E & Hn & Hi).
  assert (K : forall p b, In p (concat (map vars bl)) -> ((forall v, sats v bl -> v p = b) <-> determined row column g p b)).
  { intros p b Hp. assert (Hfc : front_cell row column g p) by (apply (di_cells IH), in_app_iff; right; apply in_app_iff; auto).
    rewrite <- (@front_determined row column g m0 p b Hm0) by apply Hfc. split.
    - intros H v Hv. apply H. now apply (di_sats IH).
    - intros H v Hv.
      (* extend v with the marks *)
      set (w := fun q => if mem_pos q I then true else if mem_pos q N then false else v q).
      assert (Hdis : forall q, In q (concat (map vars bl)) -> ~ In q N /\ ~ In q I).
      { intros q Hq. pose proof (di_nodup IH) as Nd'. split; intros Hq'.
        - apply (@NoDup_app_not_in _ _ _ q Nd' Hq'). apply in_app_iff. auto.
        - apply NoDup_app_r in Nd'. apply (@NoDup_app_not_in _ _ _ q Nd' Hq'). auto. }
      assert (Hw : forall n, front_number row column g n -> number_ok row column g w n).
      { apply (di_sats IH). split; [|split].
        - intros q Hq. unfold w. now rewrite mem_true.
        - intros q Hq. unfold w. rewrite (@mem_true q N) by auto. rewrite mem_false; auto. intros Hq'.
          pose proof (di_nodup IH) as Nd'. apply (@NoDup_app_not_in _ _ _ q Nd' Hq). apply in_app_iff. auto.
        - unfold sats in *. rewrite Forall_forall in *. intros B HB. apply (@sat_ext_in v); auto. intros q Hq.
          destruct (Hdis q) as [D1 D2]; [apply in_vars; eauto|]. unfold w. now rewrite !mem_false. }
      rewrite <- (H w Hw). unfold w. destruct (Hdis p Hp). now rewrite !mem_false. }
  assert (Hin : forall p, In p (concat (map vars bl)) -> front_cell row column g p).
  { intros p Hp. apply (di_cells IH), in_app_iff. right. apply in_app_iff. auto. }
  exists n, i. split; auto. split; [|split].
  - intros p Hp. apply Hn in Hp as [Hp Hv]. split; auto. now apply K.
  - intros p Hp. apply Hi in Hp as (B & HB & Hp & _ & Hv). assert (In p (concat (map vars bl))) by (apply in_vars; eauto). split; auto. now apply K.
  - intros _. split.
    + intros p. rewrite in_app_iff. split.
      * intros [Hp|Hp]. { split; [apply (di_cells IH), in_app_iff; auto|]. intros m Hm. apply (mk_not (di_marks IH Hm)); auto. }
        apply Hn in Hp as [Hp Hv]. split; auto. now apply K.
      * intros [Hf Hd]. pose proof Hf as Hf'. apply (di_cells IH) in Hf'. apply in_app_iff in Hf' as [Hp|Hp]; auto. apply in_app_iff in Hp as [Hp|Hp].
        { exfalso. pose proof (mk_is (di_marks IH Hm0) Hp). rewrite (Hd m0 Hm0) in H. discriminate. }
        right. apply Hn. split; auto. now apply K.
    + intros p B HB Hp Ha Hd. apply Hi. exists B. repeat split; auto. apply K; auto. apply in_vars; eauto.
Qed.

(** ** is_able_to_solve, mark_board, get_all_not_and_is_mine_on_board *)
Lemma forget_rect row column g : rect row column g -> rect row column (forget g).
Proof.
  intros [H1 H2]. split; [unfold forget; now rewrite map_length|]. unfold forget. rewrite Forall_map. eapply Forall_impl; [|exact H2]. intros r Hr. now rewrite map_length.
Qed.
Lemma forget_cell row column g p : rect row column g -> inb row column p -> cell (forget g) p = if 10 <? cell g p then 10 else cell g p.
Proof.
  intros [H1 H2] [Hi Hj]. unfold cell, forget. rewrite (@nth_map_lt _ _ _ g (fst p) [] []) by lia.
  assert (Hl : length (nth (fst p) g []) = column) by (rewrite Forall_forall in H2; apply H2, nth_In; lia).
  now rewrite (@nth_map_lt _ _ _ (nth (fst p) g []) (snd p) 0 0) by lia.
Qed.
Lemma bad_block_ok v B : good_block B -> sat v B -> bad_block B = false.
Proof.
  intros Hg Hs. unfold bad_block. apply not_true_iff_false. intros H. apply existsb_exists in H as (e & He & Hb).
  pose proof (sat_pos Hg Hs) as Hp. destruct Hg as [Hg _]. unfold sat in Hs. rewrite Forall_forall in Hs, Hp. specialize (Hs e He). specialize (Hp e He). unfold sat_eq in Hs.
  pose proof (gd_wf Hg) as Hw. rewrite Forall_forall in Hw. destruct (Hw e He) as [Hl Hbit].
  rewrite zsum_sumz, (zsum_coef (gd_nodup Hg) Hl) in Hb. rewrite dot_coef in Hs by (auto; apply Hg).
  assert (sumz (fun p => coef (fst e) (vars B) p * b2z (v p)) (vars B) <= sumz (coef (fst e) (vars B)) (vars B)).
  { apply sumz_le. intros q _. destruct (Hbit q) as [->| ->]; destruct (v q); cbn; lia. }
  lia.
Qed.

Theorem able_to_solve_ok row column g xy : satisfiable row column (forget g) -> rect row column g -> inb row column xy ->
  exists b, is_able_to_solve g xy = Ok b /\
    (b = true -> front_cell row column (forget g) xy /\ exists v, determined row column (forget g) xy v) /\
    (b = false -> (forall bl bd N I, deductions (forget g) bl bd N I -> Forall (fun B => length (vars B) <= ENUM_LIMIT)%nat bl) ->
       front_cell row column (forget g) xy -> ~ determined row column (forget g) xy false) /\
    (exists bl bd N I n i, deductions (forget g) bl bd N I /\ solve_enumerate bl = Ok (n, i) /\ (b = true <-> In xy (N ++ I ++ n ++ i))).
Proof.
  intros Hs Hr Hxy. pose proof Hs as (Hr' & H0 & m0 & Hm0). unfold is_able_to_solve. fold (forget g). set (f := forget g) in *.
  destruct (refresh_blocks Hr' H0) as (bl & k1 & k2 & E & _). pose proof (@ded_start f bl k1 k2 E) as D0. rewrite E. cbn [bind].
  assert (Hc : forall p, inb row column p -> cell f p <> 11 /\ cell f p <> 12).
  { intros p Hp. unfold f. rewrite (forget_cell Hr Hp). destruct (Z.ltb_spec 10 (cell g p)); lia. }
  assert (K : forall bl bd N I, deductions f bl bd N I -> get bd (fst xy) (snd xy) = Ok (cell bd xy) /\
     ((cell bd xy =? 11) || (cell bd xy =? 12) = true -> front_cell row column f xy /\ (In xy N /\ determined row column f xy false \/ In xy I /\ determined row column f xy true)) /\
     ((cell bd xy =? 11) || (cell bd xy =? 12) = false -> ~ In xy N /\ ~ In xy I)).
  { intros bl1 bd N I D. pose proof (deductions_inv Hr' H0 Hm0 D) as IH. pose proof (di_marks IH Hm0) as M.
    assert (Eg : get bd (fst xy) (snd xy) = Ok (cell bd xy)) by (destruct xy; apply (get_ok (mk_rect M) Hxy)). split; auto. split.
    - intros Hb. rewrite (mk_cell M) in Hb. destruct (mem_pos_spec xy I) as [Hi|Hi].
      + split; [apply (di_cells IH); rewrite !in_app_iff; auto|]. right. split; auto. intros m Hm. apply (mk_is (di_marks IH Hm)). auto.
      + destruct (mem_pos_spec xy N) as [Hn|Hn].
        * split; [apply (di_cells IH); rewrite !in_app_iff; auto|]. left. split; auto. intros m Hm. apply (mk_not (di_marks IH Hm)). auto.
        * destruct (Hc xy Hxy). lia.
    - intros Hb. rewrite (mk_cell M) in Hb. split; intros Hn.
      + rewrite (@mem_true xy N) in Hb by auto. destruct (mem_pos xy I); cbn in Hb; discriminate.
      + rewrite (@mem_true xy I) in Hb by auto. cbn in Hb; discriminate. }
  destruct (@direct_call row column f bl f [] [] Hs D0) as (bl1 & n1 & i1 & bd1 & E1 & D1 & _). 
  assert (E1' : solve_direct_st bl f = Ok (true, (bl1, n1, i1, bd1))).
  { unfold solve_direct in E1. destruct (solve_direct_st bl f) as [[ok st]| | |]; try discriminate. cbn [bind] in E1. destruct ok; try discriminate. congruence. }
  rewrite E1'. cbn [bind]. destruct (K _ _ _ _ D1) as (G1 & T1 & F1). rewrite G1. cbn [bind].
  destruct ((cell bd1 xy =? 11) || (cell bd1 xy =? 12)) eqn:B1.
  { exists true. split; auto. destruct (T1 eq_refl) as [Hf Hni]. split; [intros _; split; auto; destruct Hni as [[_ Hd]|[_ Hd]]; eauto|]. split; [discriminate|].
    destruct (@enumerate_call row column f bl1 bd1 _ _ Hs D1) as (n3 & i3 & E3 & _). do 6 eexists. split; [exact D1|]. split; [exact E3|]. split; auto. intros _. rewrite !in_app_iff. destruct Hni as [[Hn _]|[Hn _]]; rewrite in_app_iff in Hn; tauto. }
  destruct (@minus_call row column f bl1 bd1 _ _ Hs D1) as (bl2 & n2 & i2 & bd2 & E2 & D2 & _).
  assert (E2' : solve_minus_st bl1 bd1 = Ok (true, (bl2, n2, i2, bd2))).
  { unfold solve_minus in E2. destruct (solve_minus_st bl1 bd1) as [[ok st]| | |]; try discriminate. cbn [bind] in E2. destruct ok; try discriminate. congruence. }
  rewrite E2'. cbn [bind]. destruct (K _ _ _ _ D2) as (G2 & T2 & F2). rewrite G2. cbn [bind].
  destruct ((cell bd2 xy =? 11) || (cell bd2 xy =? 12)) eqn:B2.
  { exists true. split; auto. destruct (T2 eq_refl) as [Hf Hni]. split; [intros _; split; auto; destruct Hni as [[_ Hd]|[_ Hd]]; eauto|]. split; [discriminate|].
    destruct (@enumerate_call row column f bl2 bd2 _ _ Hs D2) as (n3 & i3 & E3 & _). do 6 eexists. split; [exact D2|]. split; [exact E3|]. split; auto. intros _. rewrite !in_app_iff. destruct Hni as [[Hn _]|[Hn _]]; rewrite in_app_iff in Hn; tauto. }
  destruct (@enumerate_call row column f bl2 bd2 _ _ Hs D2) as (n3 & i3 & E3 & S1 & S2 & S3). rewrite E3. cbn [bind].
  eexists. split; [reflexivity|]. split; [|split].
  - intros Hb. apply orb_true_iff in Hb as [Hb|Hb]; apply mem_pos_true in Hb; [apply S2 in Hb|apply S1 in Hb]; destruct Hb; eauto.
  - intros Hb Hlim Hf Hd. apply orb_false_iff in Hb as [_ Hb]. destruct (S3 (Hlim _ _ _ _ D2)) as [S4 _].
    assert (Hin : In xy (([] ++ n1 ++ n2) ++ n3)) by (apply S4; auto). cbn [app] in Hin. rewrite in_app_iff in Hin. destruct Hin as [Hin|Hin].
    + apply (proj1 (F2 eq_refl)). exact Hin.
    + apply (mem_true) in Hin. congruence.
  - do 6 eexists. split; [exact D2|]. split; [exact E3|]. destruct (F2 eq_refl) as [Fn Fi]. rewrite orb_true_iff. split.
    + intros [Hb|Hb]; apply mem_pos_true in Hb; apply in_or_app; right; apply in_or_app; right; apply in_or_app; auto.
    + intros Hb. apply in_app_iff in Hb as [Hb|Hb]; [contradiction|]. apply in_app_iff in Hb as [Hb|Hb]; [contradiction|]. apply in_app_iff in Hb as [Hb|Hb]; apply mem_true in Hb; auto.
Qed.

Theorem mark_board_ok row column g : satisfiable row column g ->
  exists bd safe mines, mark_board g = Ok bd /\ marked_with row column g safe mines bd /\
    (forall p, In p safe -> front_cell row column g p /\ determined row column g p false) /\
    (forall p, In p mines -> front_cell row column g p /\ determined row column g p true).
Proof.
  intros Hs. pose proof Hs as (Hr' & H0 & m0 & Hm0). unfold mark_board.
  destruct (refresh_blocks Hr' H0) as (bl & k1 & k2 & E & _). pose proof (@ded_start g bl k1 k2 E) as D0. rewrite E. cbn [bind].
  assert (K : forall bl bd N I, deductions g bl bd N I -> existsb bad_block bl = false).
  { intros bl1 bd N I D. pose proof (deductions_inv Hr' H0 Hm0 D) as IH. apply not_true_iff_false. intros H. apply existsb_exists in H as (B & HB & Hb).
    pose proof (di_good IH) as G. rewrite Forall_forall in G. rewrite (@bad_block_ok m0 B) in Hb; auto; [discriminate|].
    assert (S : sats m0 bl1) by (apply (di_sats IH); now apply consistent_front). unfold sats in S. rewrite Forall_forall in S. auto. }
  destruct (@direct_call row column g bl g [] [] Hs D0) as (bl1 & n1 & i1 & bd1 & E1 & D1 & _). rewrite E1. cbn [bind].
  rewrite (K _ _ _ _ D1).
  destruct (@minus_call row column g bl1 bd1 _ _ Hs D1) as (bl2 & n2 & i2 & bd2 & E2 & D2 & _).
  assert (E2' : solve_minus_st bl1 bd1 = Ok (true, (bl2, n2, i2, bd2))).
  { unfold solve_minus in E2. destruct (solve_minus_st bl1 bd1) as [[ok st]| | |]; try discriminate. cbn [bind] in E2. destruct ok; try discriminate. congruence. }
  rewrite E2'. cbn [bind]. rewrite (K _ _ _ _ D2). pose proof (deductions_inv Hr' H0 Hm0 D2) as IH.
  exists bd2, ([] ++ n1 ++ n2), ([] ++ i1 ++ i2). split; auto. split; [eapply marks_marked_with; apply (di_marks IH Hm0)|]. split; intros p Hp.
  - split; [apply (di_cells IH); apply in_app_iff; left; exact Hp|]. intros m Hm. apply (mk_not (di_marks IH Hm)). exact Hp.
  - split; [apply (di_cells IH); apply in_app_iff; right; apply in_app_iff; left; exact Hp|]. intros m Hm. apply (mk_is (di_marks IH Hm)). exact Hp.
Qed.

Theorem all_on_board_ok row column g bl bd N I : satisfiable row column g -> deductions g bl bd N I ->
  exists n i bd', get_all_not_and_is_mine_on_board bl bd = Ok (n, i, bd') /\
    (forall p, In p n -> determined row column g p false) /\ (forall p, In p i -> determined row column g p true).
Proof.
  intros Hs D. pose proof Hs as (Hr' & H0 & m0 & Hm0). unfold get_all_not_and_is_mine_on_board.
  destruct (direct_call Hs D) as (bl1 & n1 & i1 & bd1 & E1 & D1 & A1 & B1 & _). rewrite E1. cbn [unwrap bind].
  destruct (minus_call Hs D1) as (bl2 & n2 & i2 & bd2 & E2 & D2 & A2 & B2 & _). rewrite E2. cbn [unwrap bind].
  destruct (enumerate_call Hs D2) as (n3 & i3 & E3 & A3 & B3 & _). rewrite E3. cbn [bind].
  do 3 eexists. split; [reflexivity|]. split; intros p Hp; rewrite !in_app_iff in Hp.
  - destruct Hp as [Hp|[Hp|Hp]]; auto. now apply A3.
  - destruct Hp as [Hp|[Hp|Hp]]; auto. now apply B3.
Qed.
