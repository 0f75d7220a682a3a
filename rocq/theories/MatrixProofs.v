(** * MatrixProofs: correctness of the constraint matrices. *)
From Verif Require Import Base Spec BaseFacts Matrix SolverSpec.
Open Scope Z_scope.

Lemma mem_pos_spec p l : reflect (In p l) (mem_pos p l).
Proof.
  unfold mem_pos. destruct (existsb (posb p) l) eqn:E; constructor.
  - apply existsb_exists in E as (q & Hq & E). destruct (posb_spec p q); [subst; auto|discriminate].
  - intros H. assert (existsb (posb p) l = true); [|congruence].
    apply existsb_exists. exists p. split; auto using posb_refl.
Qed.

Lemma dot_touch n x v :
  dot (map (fun q => if nearb n q then 1 else 0) x) x v = Z.of_nat (count (fun q => nearb n q && v q) x).
Proof.
  induction x as [|q x IH]; [reflexivity|]. cbn [map dot]. rewrite IH, count_cons.
  destruct (nearb n q), (v q); cbn [andb b2z]; lia.
Qed.

Section M.
Variables (row column : nat) (g : board).
Hypothesis Hrect : rect row column g.
Hypothesis Hrow : (0 < row)%nat.

Lemma nrows_g : nrows g = row. Proof. exact (nrows_ok Hrect). Qed.
Lemma ncols_g : ncolsR g = Ok column. Proof. exact (ncolsR_ok Hrect Hrow). Qed.
Lemma get_g p : inb row column p -> get g (fst p) (snd p) = Ok (cell g p).
Proof. destruct p. intros H. exact (get_ok Hrect H). Qed.

Definition flags (n : pos) : nat := adj_count row column (flaggedb g) n.
Definition rhs (n : pos) : Z := cell g n - Z.of_nat (flags n).

(** the system described by numbers means that the numbers are right *)
Lemma describes_sat nums B v :
  describes row column g nums B -> Forall (fun n => inb row column n /\ number g n) nums ->
  (sat v B <-> Forall (number_ok row column g v) nums).
Proof.
  intros (Hnd & Hin & He) Hn. unfold sat. rewrite He, Forall_map. rewrite !Forall_forall in *.
  assert (K : forall n, In n nums -> sat_eq (vars B) v (map (fun q => if nearb n q then 1 else 0) (vars B), rhs n)
               <-> number_ok row column g v n).
  { intros n Hi. destruct (Hn n Hi) as [Hnb Hnum]. unfold sat_eq, number_ok, rhs, flags; cbn [fst snd].
    rewrite dot_touch.
    assert (E : count (fun q => nearb n q && v q) (vars B) = adj_count row column (fun q => coveredb g q && v q) n).
    { unfold adj_count. apply count_same; auto using NoDup_positions.
      intros q. rewrite in_positions, Hin. unfold coveredb, adjb. unfold number in Hnum.
      destruct (nearb_spec n q), (posb_spec n q) as [->|], (v q), (Z.eqb_spec (cell g q) 10); cbn [negb andb];
        intuition (try lia; try discriminate; eauto). }
    rewrite E. lia. }
  split; intros H n Hi; apply (K n Hi); exact (H n Hi).
Qed.

(** covered cells near n *)
Definition cov_near (n q : pos) : Prop := inb row column q /\ cell g q = 10 /\ near n q.
Definition unknowns (nums x : list pos) : Prop :=
  NoDup x /\ forall q, In q x <-> inb row column q /\ cell g q = 10 /\ exists n, In n nums /\ near n q.

Lemma add_number_ok nums x n : inb row column n -> number g n -> unknowns nums x ->
  exists x', add_number g row column x (fst n) (snd n) = Ok (x', rhs n) /\ unknowns (nums ++ [n]) x' /\
  exists ext, x' = x ++ ext.
Proof.
  intros Hn Hnum [Hnd Hin]. unfold add_number. rewrite get_g by auto. cbn [bind].
  match goal with |- context [foldM ?f ?l ?s] => 
    destruct (@foldM_inv _ _ f (fun done st => NoDup (fst st) /\
      (forall q, In q (fst st) <-> In q x \/ In q done /\ cell g q = 10) /\
      snd st = Z.of_nat (count (fun q => cell g q =? 11) done) /\ exists ext, fst st = x ++ ext) l s) as (st & E & H1 & H2 & H3 & H4) end.
  - cbn. split; auto. split; [intros q; tauto|]. split; [reflexivity|]. exists []. now rewrite app_nil_r.
  - intros done [m k] rest [x1 fl] El (A1 & A2 & A3 & ext & A4). cbn [fst snd] in *.
    assert (Hz : In (m, k) (zone row column (fst n) (snd n))) by (rewrite El; apply in_app_iff; right; now left).
    apply in_zone in Hz as [Hz _].
    rewrite (get_ok Hrect Hz). cbn [bind]. eexists. split; [reflexivity|]. cbn [fst snd].
    destruct (Z.eqb_spec (cell g (m, k)) 10) as [E10|E10]; cbn [andb].
    + destruct (mem_pos_spec (m, k) x1) as [Hm|Hm]; cbn [negb].
      * split; auto. split. { intros q. rewrite A2, in_app_iff. cbn [In]. split; [tauto|].
          intros [H|[[H|[<-|[]]] H2]]; auto. apply A2; auto. }
        split; [|eauto]. rewrite count_app, count_cons, count_nil, A3, E10. cbn. lia.
      * split. { apply NoDup_app_disj; auto. - repeat constructor; auto. - intros y Hy [<-|[]]. auto. }
        split. { intros q. rewrite !in_app_iff, A2. cbn [In]. split.
          - intros [[?|[? ?]]|[<-|[]]]; auto.
          - intros [?|[[?|[<-|[]]] ?]]; auto. }
        split. { rewrite count_app, count_cons, count_nil, A3, E10. cbn. lia. }
        exists (ext ++ [(m, k)]). rewrite A4. now rewrite app_assoc.
    + split; auto. split. { intros q. rewrite A2, in_app_iff. cbn [In]. split; [tauto|].
        intros [H|[[H|[<-|[]]] H2]]; auto. contradiction. }
      split; [|eauto]. rewrite count_app, count_cons, count_nil, A3.
      destruct (cell g (m, k) =? 11); lia.
  - rewrite E. cbn [bind]. exists (fst st). split; [|split; auto].
    + do 2 f_equal. unfold rhs, flags. rewrite H3. f_equal. f_equal.
      destruct n as [i j]. cbn [fst snd]. rewrite adj_count_zone. apply count_ext. intros q _.
      unfold flaggedb. destruct (posb_spec (i, j) q) as [<-|]; cbn [negb andb]; auto.
      unfold number in Hnum. lia.
    + split; auto. intros q. rewrite H2. rewrite Hin, in_zone, <- surjective_pairing. split.
      * intros [(A & B & k & C & D)|[[A B] C]].
        -- split; auto. split; auto. exists k. split; auto. apply in_app_iff; auto.
        -- split; auto. split; auto. exists n. split; auto. apply in_app_iff. right. now left.
      * intros (A & B & k & C & D). apply in_app_iff in C as [C|[<-|[]]]; [left; eauto|right; auto].
Qed.

(** the sharing relation *)
Definition share (e t : pos) : Prop := exists q, inb row column q /\ cell g q = 10 /\ near e q /\ near t q.
Lemma is_neighbor_ok e t : exists b, is_neighbor g row column e t = Ok b /\ (b = true <-> share e t).
Proof.
  unfold is_neighbor.
  destruct ((fst e + 3 <=? fst t) || (fst t + 3 <=? fst e) || (snd e + 3 <=? snd t) || (snd t + 3 <=? snd e))%nat eqn:Ed.
  - exists false. split; auto. split; [discriminate|]. intros (q & _ & _ & H1 & H2). unfold near in *. lia.
  - match goal with |- context [anyM ?f ?l] =>
      assert (Hl : forall q, In q l <-> inb row column q /\ near e q /\ near t q) end.
    { intros [m k]. rewrite in_prod_iff, !in_rng. unfold inb, near; cbn [fst snd]. lia. }
    rewrite (@anyM_ok _ _ (fun q => cell g q =? 10)).
    + eexists. split; [reflexivity|]. rewrite existsb_exists. unfold share. split.
      * intros (q & Hq & E). apply Hl in Hq. exists q. intuition lia.
      * intros (q & A & B & C & D). exists q. rewrite Hl. intuition lia.
    + intros [m k] Hq. apply Hl in Hq as (Hq & _). now rewrite (get_ok Hrect Hq).
Qed.

Definition fnum (n : pos) : Prop := inb row column n /\ number g n.

Lemma unknowns_perm nums nums' x : (forall n, In n nums <-> In n nums') -> unknowns nums x -> unknowns nums' x.
Proof.
  intros H [A B]. split; auto. intros q. rewrite B. split; intros (? & ? & n & ? & ?); split; auto; split; auto;
  exists n; split; auto; apply H; auto.
Qed.

Lemma grow_step_ok e rest : Forall fnum rest ->
  forall keep0 x nums bs temp, unknowns nums x -> bs = map rhs nums ->
  exists keep x' add, 
    foldM (grow_step g row column e) rest (keep0, x, nums, bs, temp) = Ok (keep, x', nums ++ add, map rhs (nums ++ add), temp ++ add) /\
    unknowns (nums ++ add) x' /\ Permutation (keep ++ add) (keep0 ++ rest) /\
    (forall t, In t keep -> In t keep0 \/ ~ share e t) /\ (forall t, In t add -> share e t).
Proof.
  induction rest as [|t rest IH]; intros Hf keep0 x nums bs temp Hu Hb.
  - exists keep0, x, []. rewrite !app_nil_r. subst bs. cbn. split; auto. split; auto. split; auto. split; auto. tauto.
  - inversion Hf as [|? ? [Ht1 Ht2] Hf']; subst. cbn [foldM grow_step].
    destruct (is_neighbor_ok e t) as (b & Eb & Hb). rewrite Eb. cbn [bind]. destruct b.
    + destruct (add_number_ok Ht1 Ht2 Hu) as (x1 & E1 & Hu1 & _). rewrite E1. cbn [bind fst snd].
      destruct (IH Hf' keep0 x1 (nums ++ [t]) (map rhs nums ++ [rhs t]) (temp ++ [t]) Hu1) as (keep & x' & add & A & B & C & D & E).
      { rewrite map_app. reflexivity. }
      exists keep, x', (t :: add). rewrite <- app_assoc in B. rewrite <- (app_assoc temp), <- (app_assoc nums) in A. cbn [app] in A, B. rewrite A. split; auto. split; auto.
      split. { rewrite <- Permutation_middle. rewrite C. now rewrite Permutation_middle. }
      split; auto. intros t' [<-|Hi]; auto. apply Hb; auto.
    + destruct (IH Hf' (t :: keep0) x nums (map rhs nums) temp Hu eq_refl) as (keep & x' & add & A & B & C & D & E).
      exists keep, x', add. cbn [bind]. rewrite A. split; auto. split; auto.
      split. { rewrite C. cbn. now rewrite Permutation_middle. }
      split; auto. intros t' Hi. destruct (D t' Hi) as [[<-|?]|?]; auto. right. intros Hs. apply Hb in Hs. discriminate.
Qed.

Lemma grow_ok fuel : forall rest x nums temp,
  Forall fnum rest -> Forall fnum nums -> unknowns nums x -> incl temp nums ->
  (forall n r, In n nums -> ~ In n temp -> In r rest -> ~ share n r) ->
  (length temp + length rest <= fuel)%nat ->
  exists rest' x' add, 
    grow fuel g row column rest x nums (map rhs nums) temp = Ok (rest', x', nums ++ add, map rhs (nums ++ add)) /\
    unknowns (nums ++ add) x' /\ Permutation (rest' ++ add) rest /\
    (forall n r, In n (nums ++ add) -> In r rest' -> ~ share n r).
Proof.
  induction fuel as [|fuel IH]; intros rest x nums temp Hf Hfn Hu Ht Hc Hlen.
  - destruct temp; cbn in Hlen; [|lia]. cbn [grow]. exists rest, x, []. rewrite !app_nil_r. split; auto.
  - destruct temp as [|e temp]; cbn [grow].
    + exists rest, x, []. rewrite !app_nil_r. split; auto.
    + destruct (@grow_step_ok e (rev rest)) with (keep0 := @nil pos) (x := x) (nums := nums) (bs := map rhs nums) (temp := temp)
        as (keep & x1 & add & A & B & C & D & E); auto.
      { apply Forall_rev; auto. }
      rewrite A. cbn [bind]. cbn [app] in C.
      assert (Cr : Permutation (keep ++ add) rest) by (rewrite C; symmetry; apply Permutation_rev).
      assert (Hfk : Forall fnum (keep ++ add)). { eapply Permutation_Forall; [symmetry; exact Cr|auto]. }
      apply Forall_app in Hfk as [Hfk Hfa].
      destruct (IH keep x1 (nums ++ add) (temp ++ add)) as (rest' & x' & add' & A' & B' & C' & D'); auto.
      * apply Forall_app; auto.
      * intros n Hn. apply in_app_iff in Hn as [Hn|Hn]; apply in_app_iff; auto. left. apply Ht. now right.
      * intros n r Hn Hnt Hr. rewrite in_app_iff in Hnt. apply in_app_iff in Hn as [Hn|Hn]; [|tauto].
        destruct (pos_eq_dec n e) as [->|Hne].
        -- destruct (D r Hr) as [[]|?]; auto.
        -- apply Hc; auto. { intros [->|?]; tauto. }
           eapply Permutation_in; [exact Cr|]. apply in_app_iff; auto.
      * apply Permutation_length in Cr. rewrite app_length in *. cbn in Hlen. lia.
      * exists rest', x', (add ++ add'). rewrite <- !app_assoc in A', B', D'. rewrite !app_assoc in A' |- *. 
        rewrite <- !app_assoc in A' |- *. rewrite A'. split; auto. split; auto. split; auto.
        rewrite <- Cr, <- C'. rewrite <- app_assoc. apply Permutation_app_head. apply Permutation_app_comm.
Qed.

Lemma touch_nearb p q : touch p q = nearb p q. Proof. reflexivity. Qed.
Lemma combine_map_map {A B C} (f : A -> B) (h : A -> C) l : combine (map f l) (map h l) = map (fun x => (f x, h x)) l.
Proof. induction l; cbn; congruence. Qed.

Lemma blocks_loop_ok fuel : forall cells, Forall fnum cells -> (length cells <= fuel)%nat ->
  exists bl numss, blocks_loop fuel g row column cells = Ok bl /\
    Forall2 (describes row column g) numss bl /\ Permutation (concat numss) cells /\
    Forall (fun nums => nums <> []) numss /\
    (* numbers of different blocks share no covered cell *)
    ForallOrdPairs (fun ns1 ns2 => forall n1 n2, In n1 ns1 -> In n2 ns2 -> ~ share n1 n2) numss.
Proof.
  induction fuel as [|fuel IH]; intros cells Hf Hlen.
  - destruct cells; cbn in Hlen; [|lia]. exists [], []. cbn. repeat split; constructor.
  - destruct cells as [|c rest]; cbn [blocks_loop].
    + exists [], []. repeat split; constructor.
    + inversion Hf as [|? ? [Hc1 Hc2] Hf']; subst.
      assert (U0 : unknowns [] []). { split; [constructor|]. intros q. cbn. split; [tauto|]. intros (_ & _ & n & [] & _). }
      destruct (add_number_ok Hc1 Hc2 U0) as (x1 & E1 & Hu1 & _). cbn [app] in *. rewrite E1. cbn [bind fst snd].
      destruct (@grow_ok (S (length rest)) rest x1 [c] [c]) as (rest' & x' & add & A & B & C & D); auto.
      { constructor; auto. split; auto. } { intros n Hn; exact Hn. }
      cbn [map] in A. rewrite A. cbn [bind].
      assert (Hfr : Forall fnum (rest' ++ add)) by (eapply Permutation_Forall; [symmetry; exact C|auto]).
      apply Forall_app in Hfr as [Hfr Hfa].
      destruct (IH rest') as (bl & numss & E & F & G & N & H); auto.
      { apply Permutation_length in C. rewrite app_length in C. cbn in Hlen. lia. }
      rewrite E. cbn [bind]. exists (Blk (build_rows ([c] ++ add) (map rhs ([c] ++ add)) x') x' :: bl), (([c] ++ add) :: numss).
      split; auto. split.
      { constructor; auto. destruct B as [B1 B2]. split; auto. split; [exact B2|]. cbn [vars eqs]. 
        unfold build_rows. rewrite combine_map_map. reflexivity. }
      split. { cbn [concat]. rewrite G. cbn. constructor. rewrite Permutation_app_comm. exact C. }
      split. { constructor; auto. discriminate. }
      constructor; auto. apply Forall_forall. intros ns Hns n1 n2 H1 H2. apply D; auto.
      eapply Permutation_in; [exact G|]. apply in_concat. eauto.
Qed.

Definition front_numberb (p : pos) : bool :=
  (0 <=? cell g p) && (cell g p <? 10) && existsb (fun q => cell g q =? 10) (zone row column (fst p) (snd p)).
Definition innerb (p : pos) : bool :=
  (cell g p =? 10) && negb (existsb (fun q => cell g q <? 10) (zone row column (fst p) (snd p))).

Lemma scan_board_ok : scan_board g row column =
  Ok (filter front_numberb (positions row column), count innerb (positions row column),
      count (fun p => cell g p =? 11) (positions row column)).
Proof.
  unfold scan_board. change (grid row column) with (positions row column).
  match goal with |- foldM ?f ?l ?s = _ => 
    destruct (@foldM_inv _ _ f (fun done st => st = (filter front_numberb done, count innerb done, count (fun p => cell g p =? 11) done)) l s)
      as (st & E & ->); auto end.
  intros done [i j] rest [[cells u] k] El Est. injection Est as -> -> ->.
  assert (Hp : inb row column (i, j)). { apply in_positions. rewrite El. apply in_app_iff. right. now left. }
  rewrite (get_ok Hrect Hp). cbn [bind]. rewrite filter_app, !count_app, !count_cons, !count_nil. cbn [filter].
  assert (Hz : forall h : Z -> bool, forall q, In q (zone row column i j) ->
     (let '(m, n) := q in let* w := get g m n in Ok (h w)) = Ok (h (cell g q))).
  { intros h [m n] Hq. apply in_zone in Hq as [Hq _]. now rewrite (get_ok Hrect Hq). }
  rewrite (findM_ok (Hz (fun w => w =? 10))). rewrite (anyM_ok (Hz (fun w => w <? 10))). cbn [bind].
  change (front_numberb (i, j)) with ((0 <=? cell g (i, j)) && (cell g (i, j) <? 10) && existsb (fun q => cell g q =? 10) (zone row column i j)).
  change (innerb (i, j)) with ((cell g (i, j) =? 10) && negb (existsb (fun q => cell g q <? 10) (zone row column i j))).
  destruct ((0 <=? cell g (i, j)) && (cell g (i, j) <? 10)) eqn:E1; cbn [andb].
  - destruct (Z.eqb_spec (cell g (i, j)) 10), (Z.eqb_spec (cell g (i, j)) 11); try lia. cbn [andb].
    eexists. split; [reflexivity|]. repeat rewrite Nat.add_0_r. destruct (existsb _ _); rewrite ?app_nil_r; reflexivity.
  - destruct (Z.eqb_spec (cell g (i, j)) 10) as [E10|]; cbn [andb].
    + eexists. split; [reflexivity|]. rewrite app_nil_r. rewrite E10; cbn [Z.eqb Pos.eqb]. destruct (existsb _ _); cbn [negb]; repeat f_equal; lia.
    + rewrite app_nil_r. destruct (Z.eqb_spec (cell g (i, j)) 11); eexists; (split; [reflexivity|]); repeat f_equal; lia.
Qed.

Lemma front_numberb_iff p : inb row column p -> (front_numberb p = true <-> front_number row column g p).
Proof.
  intros Hp. unfold front_numberb, front_number, number. rewrite !andb_true_iff, existsb_exists. split.
  - intros ((? & ?) & q & Hq & E). apply in_zone in Hq as [Hq Hn]. rewrite <- surjective_pairing in Hn. split; auto. split; [lia|].
    exists q. intuition lia.
  - intros (_ & ? & q & A & B & C). split; [lia|]. exists q. rewrite in_zone, <- surjective_pairing. intuition lia.
Qed.

Theorem refresh_matrixs_ok : exists bl numss,
  refresh_matrixs g = Ok (bl, count innerb (positions row column), count (fun p => cell g p =? 11) (positions row column)) /\
  Forall2 (describes row column g) numss bl /\ Forall (fun nums => nums <> []) numss /\
  Permutation (concat numss) (filter front_numberb (positions row column)) /\
  ForallOrdPairs (fun ns1 ns2 => forall n1 n2, In n1 ns1 -> In n2 ns2 -> ~ share n1 n2) numss.
Proof.
  unfold refresh_matrixs. rewrite nrows_g, ncols_g. cbn [bind]. rewrite scan_board_ok. cbn [bind].
  set (cells := filter front_numberb (positions row column)).
  assert (Hf : Forall fnum cells).
  { apply Forall_forall. intros p Hp. apply filter_In in Hp as [Hp Hf]. apply in_positions in Hp. split; auto.
    apply front_numberb_iff in Hf as (_ & ? & _); auto. }
  destruct (blocks_loop_ok Hf (Nat.le_refl _)) as (bl & numss & E & F & G & N & H).
  exists bl, numss. rewrite E. cbn [bind]. auto.
Qed.

(** *** refresh_matrix *)
Definition row_of (x : list pos) (n : pos) : equation := (map (fun q => if nearb n q then 1 else 0) x, rhs n).
Definition pos_front (p : pos) : bool :=
  (0 <? cell g p) && (cell g p <? 10) && existsb (fun q => cell g q =? 10) (zone row column (fst p) (snd p)).

Lemma refresh_matrix_number nums es x n : inb row column n -> number g n -> unknowns nums x -> es = map (row_of x) nums ->
  exists x', foldM (refresh_matrix_cell g) (zone row column (fst n) (snd n)) (es, x, repeat 0 (length x), cell g n) =
     Ok (map (row_of x') nums, x', fst (row_of x' n), rhs n) /\ unknowns (nums ++ [n]) x'.
Proof.
  intros Hn Hnum Hu He.
  destruct (@foldM_inv _ _ (refresh_matrix_cell g) (fun done st =>
     let '(es, x1, a, b) := st in
     NoDup x1 /\ (forall q, In q x1 <-> In q x \/ In q done /\ cell g q = 10) /\ es = map (row_of x1) nums /\
     a = map (fun q => if mem_pos q done then 1 else 0) x1 /\
     b = cell g n - Z.of_nat (count (fun q => cell g q =? 11) done)) (zone row column (fst n) (snd n))
     (es, x, repeat 0 (length x), cell g n)) as ([[[es1 x1] a1] b1] & E & H1 & H2 & H3 & H4 & H5).
  - split; [apply Hu|]. split; [intros q; cbn; tauto|]. split; auto. split; [|cbn; lia].
    cbn. clear. induction x; cbn; congruence.
  - intros done p rest [[[es1 x1] a] b] El (A1 & A2 & A3 & A4 & A5).
    assert (Hz : In p (zone row column (fst n) (snd n))) by (rewrite El; apply in_app_iff; right; now left).
    apply in_zone in Hz as [Hz Hzn]. rewrite <- surjective_pairing in Hzn.
    unfold refresh_matrix_cell. rewrite get_g by auto. cbn [bind].
    assert (Hpd : ~ In p done). { intros Hd. pose proof (NoDup_zone row column (fst n) (snd n)) as Hnd. rewrite El in Hnd.
      apply NoDup_remove_2 in Hnd. apply Hnd, in_app_iff; auto. }
    assert (Hmem : forall q, q <> p -> mem_pos q (done ++ [p]) = mem_pos q done).
    { intros q Hq. unfold mem_pos. rewrite existsb_app. cbn. rewrite (posb_neq Hq). now rewrite !orb_false_r. }
    assert (Hmemp : mem_pos p (done ++ [p]) = true). { destruct (mem_pos_spec p (done ++ [p])); auto. exfalso. apply n0, in_app_iff. right. now left. }
    destruct (Z.eqb_spec (cell g p) 11) as [E11|N11]; [|destruct (Z.eqb_spec (cell g p) 10) as [E10|N10]].
    + eexists. split; [reflexivity|]. cbn. split; auto. split.
      { intros q. rewrite A2, in_app_iff. cbn. split; [tauto|]. intros [?|[[?|[<-|[]]] ?]]; auto; lia. }
      split; auto. split.
      { rewrite A4. apply map_ext_in. intros q Hq. rewrite Hmem; auto. intros ->. apply A2 in Hq as [Hq|[Hq _]]; auto.
        apply Hu in Hq as (_ & Hq & _). lia. }
      rewrite A5, count_app, count_cons, count_nil, E11. cbn. lia.
    + destruct (mem_pos_spec p x1) as [Hm|Hm].
      * eexists. split; [reflexivity|]. cbn. split; auto. split.
        { intros q. rewrite A2, in_app_iff. cbn. split; [tauto|]. intros [?|[[?|[<-|[]]] ?]]; auto. apply A2; auto. }
        split; auto. split.
        { rewrite A4. clear - Hmem Hmemp. induction x1 as [|q x1 IH]; cbn; auto. rewrite IH. f_equal.
          destruct (posb_spec p q) as [<-|Hne]; [now rewrite Hmemp|rewrite Hmem; auto]. }
        rewrite A5, count_app, count_cons, count_nil, E10. cbn. lia.
      * eexists. split; [reflexivity|]. cbn. split.
        { apply NoDup_app_disj; auto. - repeat constructor; auto. - intros y Hy [<-|[]]. auto. }
        split. { intros q. rewrite !in_app_iff, A2. cbn. split.
          - intros [[?|[? ?]]|[<-|[]]]; auto. - intros [?|[[?|[<-|[]]] ?]]; auto. }
        split.
        { rewrite A3, map_map. apply map_ext_in. intros k Hk. unfold row_of. rewrite map_app. cbn.
          destruct (nearb_spec k p); auto. exfalso. apply Hm, A2. left. apply Hu. split; auto. split; eauto. }
        split. { rewrite A4, map_app. cbn. rewrite Hmemp. f_equal. apply map_ext_in. intros q Hq. rewrite Hmem; auto. congruence. }
        rewrite A5, count_app, count_cons, count_nil, E10. cbn. lia.
    + eexists. split; [reflexivity|]. cbn. split; auto. split.
      { intros q. rewrite A2, in_app_iff. cbn. split; [tauto|]. intros [?|[[?|[<-|[]]] ?]]; auto; lia. }
      split; auto. split.
      { rewrite A4. apply map_ext_in. intros q Hq. rewrite Hmem; auto. intros ->. apply A2 in Hq as [Hq|[Hq _]]; auto.
        apply Hu in Hq as (_ & Hq & _). lia. }
      rewrite A5, count_app, count_cons, count_nil. destruct (Z.eqb_spec (cell g p) 11); [contradiction|]. lia.
  - exists x1. rewrite E, H3, H4, H5. split.
    + repeat f_equal.
      * cbn. apply map_ext_in. intros q Hq. destruct (mem_pos_spec q (zone row column (fst n) (snd n))) as [Hz|Hz], (nearb_spec n q) as [Hnr|Hnr]; auto; exfalso.
        -- apply in_zone in Hz as [_ Hz]. rewrite <- surjective_pairing in Hz. auto.
        -- apply Hz, in_zone. rewrite <- surjective_pairing. split; auto. apply H2 in Hq as [Hq|[Hq _]]; [now apply Hu in Hq|].
           apply in_zone in Hq; tauto.
      * unfold rhs, flags. f_equal. f_equal. destruct n as [i j]. cbn [fst snd]. rewrite adj_count_zone. apply count_ext. intros q _.
        unfold flaggedb. destruct (posb_spec (i, j) q) as [<-|]; cbn [negb andb]; auto. unfold number in Hnum. lia.
    + split; auto. intros q. rewrite H2. destruct Hu as [_ Hin]. rewrite Hin, in_zone, <- surjective_pairing. split.
      * intros [(A & B & k & C & D)|[[A B] C]].
        -- split; auto. split; auto. exists k. split; auto. apply in_app_iff; auto.
        -- split; auto. split; auto. exists n. split; auto. apply in_app_iff. right. now left.
      * intros (A & B & k & C & D). apply in_app_iff in C as [C|[<-|[]]]; [left; eauto|right; auto].
Qed.

Theorem refresh_matrix_ok : exists B, refresh_matrix g = Ok B /\
  describes row column g (filter pos_front (positions row column)) B.
Proof.
  unfold refresh_matrix. rewrite nrows_g, ncols_g. cbn [bind]. change (grid row column) with (positions row column).
  match goal with |- context [foldM ?f ?l ?s] =>
    destruct (@foldM_inv _ _ f (fun done st => unknowns (filter pos_front done) (snd st) /\ fst st = map (row_of (snd st)) (filter pos_front done)) l s)
      as ([es x] & E & H1 & H2) end.
  - cbn. split; auto. split; [constructor|]. intros q. cbn. split; [tauto|]. intros (_ & _ & n & [] & _).
  - intros done [i j] rest [es x] El [Hu He]. cbn [fst snd] in *.
    assert (Hp : inb row column (i, j)). { apply in_positions. rewrite El. apply in_app_iff. right. now left. }
    rewrite (get_ok Hrect Hp). cbn [bind]. rewrite filter_app. cbn [filter].
    change (pos_front (i, j)) with ((0 <? cell g (i, j)) && (cell g (i, j) <? 10) && existsb (fun q => cell g q =? 10) (zone row column i j)).
    rewrite (@anyM_ok _ _ (fun q => cell g q =? 10)).
    2:{ intros [m k] Hq. apply in_zone in Hq as [Hq _]. now rewrite (get_ok Hrect Hq). }
    cbn [bind]. destruct ((0 <? cell g (i, j)) && (cell g (i, j) <? 10)) eqn:E1; cbn [andb].
    + destruct (existsb _ _) eqn:E2.
      * destruct (@refresh_matrix_number (filter pos_front done) es x (i, j)) as (x' & E & Hu'); auto. { unfold number; lia. }
        cbn [fst snd] in E. rewrite E. cbn [bind]. eexists. split; [reflexivity|]. cbn [fst snd]. split; auto. rewrite map_app. reflexivity.
      * eexists. split; [reflexivity|]. rewrite app_nil_r. auto.
    + eexists. split; [reflexivity|]. rewrite app_nil_r. auto.
  - cbn [fst snd] in *. rewrite E. cbn [bind fst snd]. eexists. split; [reflexivity|]. destruct H1 as [A B]. split; auto.
Qed.
End M.

(** *** consequences *)
Lemma consistent_number_ok row column g m p : consistent row column g m -> inb row column p -> number g p ->
  number_ok row column g m p.
Proof.
  intros Hc Hp Hn. destruct (Hc p Hp) as (_ & _ & H). unfold number_ok. rewrite (H Hn). rewrite <- Nat2Z.inj_add. f_equal.
  unfold adj_count. rewrite (@count_split _ (fun q => adjb p q && m q) (flaggedb g)).
  f_equal; apply count_ext; intros q Hq; apply in_positions in Hq; destruct (Hc q Hq) as (A & B & _);
    unfold flaggedb, coveredb in *; destruct (Z.eqb_spec (cell g q) 11), (Z.eqb_spec (cell g q) 10), (adjb p q), (m q); cbn; auto; try lia;
    try (specialize (A ltac:(auto)); congruence); try (specialize (B ltac:(auto) ltac:(auto)); congruence).
Qed.
