(** * StoreProofs: lemmas about Board and GameBoard. *)
From Verif Require Import Base Spec BaseFacts LayMine Metrics MetricsProofs Matrix Solve SolverSpec MatrixProofs LinFacts DirectProofs
  ChunkProofs SolveProofs EnumProofs EnumSolve PosProofs BoardCache.
Open Scope Z_scope.

(** ** Board *)
(** What a query answers, given the true statistics and the queries made before (oldest first).
    [first_op]: the first earlier query that touches the opening counter. *)
Definition touches_op (q : query) : bool := match q with Qbbbv | Qop => true | _ => false end.
Definition is_bbbv (q : query) : bool := match q with Qbbbv => true | _ => false end.
Definition is_isl (q : query) : bool := match q with Qisl => true | _ => false end.
Definition cached_op (op : nat) (before : list query) : nat :=
  match find touches_op before with Some Qop => 0%nat | _ => op end.
Definition answer (isle op isl : nat) (cells : list nat) (before : list query) (q : query) : nat :=
  match q with
  | Qbbbv => if existsb is_bbbv before then 0%nat else (isle + cached_op op before)%nat
  | Qop => cached_op op before
  | Qisl => if existsb is_isl before then 0%nat else isl
  | Qcell k => nth k cells 0%nat
  end.
Fixpoint answers (isle op isl : nat) (cells : list nat) (before qs : list query) : list nat :=
  match qs with
  | [] => []
  | q :: qs => answer isle op isl cells before q :: answers isle op isl cells (before ++ [q]) qs
  end.

Section B.
Variables (b : board) (isle op isl : nat) (cells : list nat).
Hypothesis Hisle : cal3BVonIsland b = Ok isle.
Hypothesis Hop : cal_op b = Ok op.
Hypothesis Hisl : cal_isl b = Ok isl.
Hypothesis Hcells : cal_cell_nums b = Ok cells.
Hypothesis Hlen : length cells = 9%nat.

Record cache_ok (before : list query) (c : cboard) : Prop := {
  co_board : c_board c = b;
  co_bbbv : c_bbbv c = 0%nat;
  co_has_bbbv : c_has_bbbv c = existsb is_bbbv before;
  co_has_op : c_has_op c = existsb touches_op before;
  co_op : c_has_op c = true -> c_op c = cached_op op before;
  co_op0 : c_has_op c = false -> c_op c = 0%nat;
  co_isl : c_isl c = 0%nat;
  co_has_isl : c_has_isl c = existsb is_isl before;
  co_cells : c_has_cells c = true -> c_cells c = cells }.

Lemma find_none_existsb {A} (f : A -> bool) l : existsb f l = false -> find f l = None.
Proof. induction l as [|a l IH]; auto. cbn. destruct (f a); [discriminate|auto]. Qed.
Lemma find_app {A} (f : A -> bool) l m : find f (l ++ m) = match find f l with Some a => Some a | None => find f m end.
Proof. induction l as [|a l IH]; auto. cbn. destruct (f a); auto. Qed.
Lemma find_some_existsb {A} (f : A -> bool) l : existsb f l = true -> exists a, find f l = Some a.
Proof. induction l as [|a l IH]; cbn; [discriminate|]. destruct (f a); eauto. Qed.
Lemma cached_app before q : existsb touches_op before = true -> cached_op op (before ++ [q]) = cached_op op before.
Proof. intros H. unfold cached_op. rewrite find_app. destruct (find_some_existsb H) as [a ->]. reflexivity. Qed.

Definition legal_query (q : query) : Prop := match q with Qcell k => (k < 9)%nat | _ => True end.
Lemma ask_ok before c q : cache_ok before c -> legal_query q ->
  exists c', ask c q = Ok (answer isle op isl cells before q, c') /\ cache_ok (before ++ [q]) c'.
Proof.
  intros [H1 H2 H3 H4 H5 H5' H6 H7 H8] Hq. destruct q as [| | |k]; cbn [ask answer].
  - unfold get_bbbv. rewrite H3. destruct (existsb is_bbbv before) eqn:E.
    + exists c. rewrite H2. split; auto. constructor; auto; rewrite ?existsb_app, ?E; cbn; auto.
      * now rewrite H4, orb_true_r; destruct (existsb touches_op before) eqn:E2; auto; exfalso; apply existsb_exists in E as (q & Hi & E); rewrite <- not_true_iff_false in E2; apply E2, existsb_exists; exists q; split; auto; destruct q.
      * intros Ht. rewrite cached_app by congruence. auto.
      * now rewrite orb_false_r.
    + rewrite H1, Hisle. cbn [bind]. rewrite H4. destruct (existsb touches_op before) eqn:E2; cbn [bind].
      * rewrite H5 by auto. eexists. split; [reflexivity|]. constructor; cbn; rewrite ?existsb_app, ?E, ?E2; cbn; auto; try discriminate.
        -- intros _. now rewrite cached_app.
        -- now rewrite H7, orb_false_r.
      * rewrite Hop. cbn [bind]. eexists. split; [unfold cached_op; now rewrite find_none_existsb|]. constructor; cbn; rewrite ?existsb_app, ?E, ?E2; cbn; auto; try discriminate.
        -- intros _. unfold cached_op. rewrite find_app, find_none_existsb by auto. reflexivity.
        -- now rewrite H7, orb_false_r.
  - unfold get_op. rewrite H4. destruct (existsb touches_op before) eqn:E2.
    + rewrite H5 by auto. exists c. split; auto. constructor; rewrite ?existsb_app, ?E2; cbn; rewrite ?orb_false_r; auto. intros _. rewrite cached_app by auto. auto.
    + rewrite H1, Hop. cbn [bind]. eexists. split; [unfold cached_op; now rewrite find_none_existsb|]. constructor; cbn; rewrite ?existsb_app, ?E2; cbn; rewrite ?orb_false_r; auto; try discriminate.
      intros _. rewrite H5' by congruence. unfold cached_op. rewrite find_app, find_none_existsb by auto. reflexivity.
  - unfold get_isl. rewrite H7. destruct (existsb is_isl before) eqn:E.
    + exists c. rewrite H6. split; auto. constructor; rewrite ?existsb_app, ?E; cbn; rewrite ?orb_false_r; auto. intros Ht. rewrite cached_app by congruence. auto.
    + rewrite H1, Hisl. cbn [bind]. eexists. split; [reflexivity|]. constructor; cbn; rewrite ?existsb_app, ?E; cbn; rewrite ?orb_false_r; auto.
      intros Ht. rewrite cached_app by congruence. auto.
  - unfold get_cell. cbn in Hq. destruct (c_has_cells c) eqn:E; cbn [bind].
    + rewrite H8 by auto. rewrite (@vget_ok _ _ _ 0%nat) by lia. cbn [bind]. exists c. split; auto. constructor; rewrite ?existsb_app; cbn; rewrite ?orb_false_r; auto.
      * intros Ht. rewrite cached_app by congruence. auto. 
    + rewrite H1, Hcells. cbn [bind c_cells]. rewrite (@vget_ok _ _ _ 0%nat) by lia. cbn [bind]. eexists. split; [reflexivity|]. constructor; cbn; rewrite ?existsb_app; cbn; rewrite ?orb_false_r; auto.
      * intros Ht. rewrite cached_app by congruence. auto.
Qed.
Lemma asks_ok qs : forall before c, cache_ok before c -> Forall legal_query qs -> asks c qs = Ok (answers isle op isl cells before qs).
Proof.
  induction qs as [|q qs IH]; intros before c Hc Hq; auto. inversion Hq; subst. destruct (ask_ok Hc H1) as (c' & E & Hc'). cbn [asks answers].
  rewrite E. cbn [bind]. rewrite (IH (before ++ [q])) by auto. reflexivity.
Qed.
Lemma new_ok : cache_ok [] (cboard_new b).
Proof. constructor; cbn; auto; discriminate. Qed.
End B.

(** ** GameBoard *)
Lemma filter_none {A} (f : A -> bool) l : (forall x, In x l -> f x = false) -> filter f l = [].
Proof. induction l as [|a l IH]; intros H; auto. cbn. rewrite (H a) by now left. apply IH. intros x Hx. apply H. now right. Qed.
Lemma cells11_ok row column bd : rect row column bd -> (0 < row)%nat ->
  cells11 bd = Ok (filter (fun p => cell bd p =? 11) (positions row column)).
Proof.
  intros Hr H0. unfold cells11. rewrite (ncolsR_ok Hr H0). cbn [bind]. unfold nrows. rewrite (proj1 Hr). change (grid row column) with (positions row column).
  destruct (@foldM_inv _ _ (fun l '(i, j) => let* v := get bd i j in Ok (if v =? 11 then l ++ [(i, j)] else l))
    (fun done l => l = filter (fun p => cell bd p =? 11) done) (positions row column) []) as (l & E & ->); auto.
  intros done [i j] rest l El ->. assert (Hin : inb row column (i, j)) by (apply in_positions; rewrite El; apply in_or_app; right; now left).
  rewrite (get_ok Hr Hin). cbn [bind]. eexists. split; [reflexivity|]. rewrite filter_app. cbn [filter]. destruct (cell bd (i, j) =? 11); auto. now rewrite app_nil_r.
Qed.
Lemma set12_ok row column l : forall bd, rect row column bd -> (forall p, In p l -> inb row column p /\ cell bd p = 12) ->
  exists bd', foldM (fun bd '(i, j) => set bd i j 12) l bd = Ok bd' /\ rect row column bd' /\ forall p, inb row column p -> cell bd' p = cell bd p.
Proof.
  intros bd Hr Hl. destruct (@foldM_inv _ _ (fun bd '(i, j) => set bd i j 12) (fun _ bd' => rect row column bd' /\ forall p, inb row column p -> cell bd' p = cell bd p) l bd) as (bd' & E & H); eauto.
  intros done [i j] rest bd' El [H1 H2]. assert (Hin : In (i, j) l) by (rewrite El; apply in_or_app; right; now left).
  destruct (Hl _ Hin) as [Hi H12]. rewrite (set_ok _ H1 Hi).
  eexists. split; [reflexivity|]. split; [now apply rect_upd|]. intros p Hp. rewrite (cell_upd _ _ H1 Hi). destruct (posb_spec (i, j) p) as [<-|Hne]; auto.
Qed.

Record marked_state (row column : nat) (g : board) (s : gboard) : Prop := {
  ms_marked : gb_is_marked s = true;
  ms_board : gb_board s = g;
  ms_bnot : forall p, In p (gb_basic_not s) -> front_cell row column (forget g) p /\ determined row column (forget g) p false;
  ms_bis : forall p, In p (gb_basic_is s) -> front_cell row column (forget g) p /\ determined row column (forget g) p true;
  ms_enot : forall p, In p (gb_enum_not s) -> front_cell row column (forget g) p /\ determined row column (forget g) p false;
  ms_eis : gb_enum_is s = [];
  ms_complete : (forall bl bd N I, deductions (forget g) bl bd N I -> Forall (fun B => length (vars B) <= ENUM_LIMIT)%nat bl) ->
    forall p, front_cell row column (forget g) p -> determined row column (forget g) p false -> In p (gb_basic_not s ++ gb_enum_not s) }.

Theorem gb_mark_ok row column g n : satisfiable row column (forget g) -> rect row column g ->
  exists s, gb_mark (set_game_board (gboard_new n) g) = Ok s /\ marked_state row column g s.
Proof.
  intros Hs Hrg. set (f := forget g) in *. unfold gb_mark, set_game_board. cbn [gb_is_marked gboard_new gb_marked gb_basic_not gb_basic_is gb_enum_is gb_board gb_minenum].
  change (map (map (fun v => if 10 <? v then 10 else v)) g) with f.
  pose proof Hs as (Hr & H0 & m0 & Hm0). destruct (refresh_blocks Hr H0) as (bl0 & k1 & k2 & E0 & _). rewrite E0. cbn [bind].
  pose proof (ded_start E0) as D0. destruct (direct_call Hs D0) as (bl1 & n1 & i1 & bd1 & E1 & D1 & _). rewrite E1. cbn [unwrap bind].
  destruct (minus_call Hs D1) as (bl2 & n2 & i2 & bd2 & E2 & D2 & _). rewrite E2. cbn [unwrap bind].
  pose proof (deductions_inv Hr H0 Hm0 D2) as IH. cbn [app] in D2, IH. rewrite !app_nil_l in *.
  assert (Hfc : forall p, In p (n1 ++ n2) \/ In p (i1 ++ i2) -> front_cell row column f p).
  { intros p Hp. apply (di_cells IH). rewrite !in_app_iff in *. tauto. }
  pose proof (di_marks IH Hm0) as M0. pose proof (marks_marked_with M0) as (R2 & C11 & C12 & Coth).
  destruct (@set12_ok row column (n1 ++ n2) bd2) as (bd3 & E3 & R3 & C3); auto.
  { intros p Hp. split; [apply Hfc; auto|auto]. }
  rewrite E3. cbn [bind]. rewrite (cells11_ok R3 H0). cbn [bind].
  destruct (enumerate_call Hs D2) as (n3 & i3 & E4 & Hn3 & _ & Hcomp). rewrite E4. cbn [bind].
  eexists. split; [reflexivity|]. constructor; cbn [gb_is_marked gb_board gb_basic_not gb_basic_is gb_enum_not gb_enum_is]; auto.
  - intros p Hp. split; [apply Hfc; auto|]. intros m Hm. apply (mk_not (di_marks IH Hm)); auto.
  - intros p Hp. apply filter_In in Hp as [Hp Hc]. apply in_positions in Hp. apply Z.eqb_eq in Hc. rewrite C3 in Hc by auto.
    destruct (in_dec pos_eq_dec p (i1 ++ i2)) as [Hi|Hi].
    + split; [apply Hfc; auto|]. intros m Hm. apply (mk_is (di_marks IH Hm)); auto.
    + exfalso. destruct (in_dec pos_eq_dec p (n1 ++ n2)) as [Hn|Hn]; [rewrite C12 in Hc by auto; lia|]. rewrite Coth in Hc by auto.
      unfold f in Hc. rewrite (forget_cell Hrg) in Hc by auto. destruct (Z.ltb_spec 10 (cell g p)); lia.
  - apply filter_none. intros p Hp. cbn [app]. now rewrite (mem_true Hp).
  - intros Hl p H1 H2. specialize (Hl _ _ _ _ D2). apply (proj1 (Hcomp Hl)); auto.
Qed.

Definition gpick (s : gboard) (q : gquery) : list pos :=
  match q with Gbasic_not => gb_basic_not s | Gbasic_is => gb_basic_is s | Genum_not => gb_enum_not s | Genum_is => gb_enum_is s end.
Lemma gasks_marked s qs : gb_is_marked s = true -> gsession s (map Gask qs) = Ok (map (gpick s) qs).
Proof.
  intros H. induction qs as [|q qs IH]; auto. cbn [map gsession]. unfold gask, gb_mark. rewrite H. cbn [bind]. rewrite IH. cbn [bind]. destruct q; reflexivity.
Qed.
Theorem gsession_ok row column g n qs : satisfiable row column (forget g) -> rect row column g ->
  exists s, gsession (gboard_new n) (Gset g :: map Gask qs) = Ok (map (gpick s) qs) /\ marked_state row column g s.
Proof.
  intros H1 H2. destruct (gb_mark_ok n H1 H2) as (s & E & Hm). exists s. split; auto. cbn [gsession]. destruct qs as [|q qs]; auto.
  cbn [map gsession]. unfold gask. rewrite E. cbn [bind]. rewrite (gasks_marked qs (ms_marked Hm)). cbn [bind]. destruct q; reflexivity.
Qed.
