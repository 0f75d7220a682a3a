(** * UnsolvFound: [unsolvable_structure] finds exactly the places that cannot be settled. *)
From Verif Require Import Base Spec BaseFacts Matrix MatrixProofs EnumProofs Solvable SolvableSpec SolvableProofs UnsolvProofs.
Open Scope Z_scope.

Ltac atoms := repeat (apply Forall_cons; [repeat (apply Forall_cons; [unfold atom_in, M1, F0, S2, S3; cbn [fst];
   repeat (apply Forall_cons; [split; cbn [fst snd]; lia|]); apply Forall_nil|]); apply Forall_nil|]); apply Forall_nil.
Section I.
Variables (row column : nat).
Hypothesis Hr : (3 <= row)%nat.
Hypothesis Hc : (3 <= column)%nat.
Lemma structs_in : Forall (Forall (atom_in row column)) (structs row column).
Proof.
  unfold structs. rewrite !Forall_app. split; [|split; [|split]].
  - apply Forall_flat_map, Forall_forall. intros i Hi. apply in_seq in Hi. unfold row_structs. rewrite !Forall_app. split; [|split].
    + destruct (Nat.ltb_spec i (row - 3)); [atoms|constructor].
    + atoms.
    + destruct (Nat.ltb_spec i (row - 3)); [atoms|constructor].
  - apply Forall_flat_map, Forall_forall. intros i Hi. apply in_seq in Hi. unfold col_structs. rewrite !Forall_app. split; [|split].
    + destruct (Nat.ltb_spec i (column - 3)); [atoms|constructor].
    + atoms.
    + destruct (Nat.ltb_spec i (column - 3)); [atoms|constructor].
  - unfold corner_structs. atoms.
  - apply Forall_flat_map, Forall_forall. intros [i j] Hi. apply in_grid in Hi as [Hi Hj]. cbn [fst snd] in *. unfold mid_structs. rewrite !Forall_app. split; [|split; [|split]].
    + destruct (Nat.ltb_spec j (column - 3)); [atoms|constructor].
    + destruct (Nat.ltb_spec i (row - 3)); [atoms|constructor].
    + atoms.
    + destruct (Nat.ltb_spec j (column - 3)), (Nat.ltb_spec i (row - 3)); cbn [andb]; [atoms|constructor|constructor|constructor].
Qed.

(** ** every such place is found *)
Section C.
Variable b : board.
Lemma hM1 x y : is_mine b (x, y) = true -> holds b (M1 x y).
Proof. unfold holds, M1, minez. cbn. now intros ->. Qed.
Lemma hF0 x y : is_mine b (x, y) = false -> holds b (F0 x y).
Proof. unfold holds, F0, minez. cbn. now intros ->. Qed.
Lemma hS2 x y x' y' : is_mine b (x', y') = negb (is_mine b (x, y)) -> holds b (S2 x y x' y').
Proof. unfold holds, S2, minez. cbn. intros ->. now destruct (is_mine b (x, y)). Qed.
Lemma hS2' x y x' y' : is_mine b (x, y) = negb (is_mine b (x', y')) -> holds b (S2 x y x' y').
Proof. unfold holds, S2, minez. cbn. intros ->. now destruct (is_mine b (x', y')). Qed.
Lemma hS3 x y x' y' x2 y2 : is_mine b (x, y) = true -> is_mine b (x', y') = true -> is_mine b (x2, y2) = true -> holds b (S3 x y x' y' x2 y2).
Proof. unfold holds, S3, minez. cbn. now intros -> -> ->. Qed.
Definition found : Prop := exists s, In s (structs row column) /\ Forall (holds b) s.

Lemma in_row i s : (i < row - 2)%nat -> In s (row_structs row column i) -> In s (structs row column).
Proof. intros Hi Hs. unfold structs. apply in_or_app. left. apply in_flat_map. exists i. split; auto. apply in_seq. lia. Qed.
Lemma in_col j s : (j < column - 2)%nat -> In s (col_structs row column j) -> In s (structs row column).
Proof. intros Hi Hs. unfold structs. apply in_or_app. right. apply in_or_app. left. apply in_flat_map. exists j. split; auto. apply in_seq. lia. Qed.
Lemma in_corner s : In s (corner_structs row column) -> In s (structs row column).
Proof. intros Hs. unfold structs. do 2 (apply in_or_app; right). apply in_or_app. now left. Qed.
Lemma in_mid i j s : (i < row - 2)%nat -> (j < column - 2)%nat -> In s (mid_structs row column (i, j)) -> In s (structs row column).
Proof. intros Hi Hj Hs. unfold structs. do 3 (apply in_or_app; right). apply in_flat_map. exists (i, j). split; auto. apply in_grid. now split. Qed.
End C.
Lemma lone_found b p : lone row column b p -> found b.
Proof.
  destruct p as [x y]. intros ([Hx Hy] & Hs & Hm). cbn [fst snd] in *.
  assert (M : forall u v, (u < row)%nat -> (v < column)%nat -> (x <> u \/ y <> v)%nat -> (x <= u + 1 /\ u <= x + 1 /\ y <= v + 1 /\ v <= y + 1)%nat -> is_mine b (u, v) = true).
  { intros u v Hu Hv Hn Ha. apply Hm; [now split|]. assert (A : adjb (x, y) (u, v) = true) by (apply adjb_lia; tauto). now destruct (adjb_spec (x, y) (u, v)). }
  clear Hm.
  assert (Cx : (x = 0 \/ x = row - 1 \/ exists i, x = i + 1 /\ i < row - 2)%nat) by (destruct x as [|x]; [auto|right]; destruct (Nat.eq_dec (S x) (row - 1)); [auto|right; exists x; lia]).
  assert (Cy : (y = 0 \/ y = column - 1 \/ exists i, y = i + 1 /\ i < column - 2)%nat) by (destruct y as [|y]; [auto|right]; destruct (Nat.eq_dec (S y) (column - 1)); [auto|right; exists y; lia]).
  Ltac fin b M := repeat (apply Forall_cons; [first [apply hF0; assumption|apply hM1; apply M; lia|apply hS3; apply M; lia]|]); apply Forall_nil.
  destruct Cx as [->|[->|(i & -> & Hi)]], Cy as [->|[->|(j & -> & Hj)]].
  - eexists. split; [apply in_corner; unfold corner_structs; do 8 right; left; reflexivity|]. fin b M.
  - eexists. split; [apply in_corner; unfold corner_structs; do 9 right; left; reflexivity|]. fin b M.
  - eexists. split; [apply (@in_col j); [lia|unfold col_structs; apply in_or_app; right; apply in_or_app; left; do 2 right; left; reflexivity]|]. fin b M.
  - eexists. split; [apply in_corner; unfold corner_structs; do 11 right; left; reflexivity|]. fin b M.
  - eexists. split; [apply in_corner; unfold corner_structs; do 10 right; left; reflexivity|]. fin b M.
  - eexists. split; [apply (@in_col j); [lia|unfold col_structs; apply in_or_app; right; apply in_or_app; left; do 3 right; left; reflexivity]|]. fin b M.
  - eexists. split; [apply (@in_row i); [lia|unfold row_structs; apply in_or_app; right; apply in_or_app; left; do 2 right; left; reflexivity]|]. fin b M.
  - eexists. split; [apply (@in_row i); [lia|unfold row_structs; apply in_or_app; right; apply in_or_app; left; do 3 right; left; reflexivity]|]. fin b M.
  - eexists. split; [apply (@in_mid i j); [lia|lia|unfold mid_structs; do 2 (apply in_or_app; right); apply in_or_app; left; left; reflexivity]|]. fin b M.
Qed.

Lemma cases3 n x : (3 <= n)%nat -> (x + 1 < n)%nat -> (x = 0 \/ x + 2 = n \/ exists i, x = i + 1 /\ i < n - 3)%nat.
Proof. intros Hn Hx. destruct x as [|x]; [auto|right]. destruct (Nat.eq_dec (S x + 2) n); [auto|right; exists x; lia]. Qed.
Lemma cases2 n x : (3 <= n)%nat -> (x < n)%nat -> (x = 0 \/ x = n - 1 \/ exists i, x = i + 1 /\ i < n - 2)%nat.
Proof. intros Hn Hx. destruct x as [|x]; [auto|right]. destruct (Nat.eq_dec (S x) (n - 1)); [auto|right; exists x; lia]. Qed.
Lemma eqpos (b : board) x y x' y' v : is_mine b (x, y) = v -> x = x' -> y = y' -> is_mine b (x', y') = v.
Proof. now intros <- -> ->. Qed.
Lemma eqneg (b : board) x y u w x' y' u' w' : is_mine b (x, y) = negb (is_mine b (u, w)) -> x = x' -> y = y' -> u = u' -> w = w' -> is_mine b (x', y') = negb (is_mine b (u', w')).
Proof. now intros H <- <- <- <-. Qed.
Ltac finm b M E := repeat (apply Forall_cons; [first [apply hM1; apply M; lia|apply hS2; apply (eqneg E); lia|apply hS2'; apply (eqneg E); lia]|]); apply Forall_nil.
Ltac in_first := apply in_or_app; left.
Ltac in_second := apply in_or_app; right; apply in_or_app; left.
Ltac in_third := apply in_or_app; right; apply in_or_app; right.
Ltac yes := rewrite !(proj2 (Nat.ltb_lt _ _)) by lia; cbn [andb].

Lemma domino_h b x y : inb row column (x, y + 1)%nat -> is_mine b (x, y + 1)%nat = negb (is_mine b (x, y)) ->
  (forall u v, (u < row)%nat -> (v < column)%nat -> (u <= x + 1 /\ x <= u + 1)%nat -> (v + 1 = y \/ v = y + 2)%nat -> is_mine b (u, v) = true) -> found b.
Proof.
  intros [Hx Hy] E M. cbn [fst snd] in *.
  destruct (cases2 Hr Hx) as [->|[->|(i & -> & Hi)]], (cases3 Hc Hy) as [Cy|[Cy|(j & -> & Hj)]]; try subst y.
  - eexists. split; [apply in_corner; unfold corner_structs; do 0 right; left; reflexivity|]. finm b M E.
  - eexists. split; [apply in_corner; unfold corner_structs; do 2 right; left; reflexivity|]. finm b M E.
  - eexists. split; [apply (@in_col j); [lia|unfold col_structs; in_first; yes; left; reflexivity]|]. finm b M E.
  - eexists. split; [apply in_corner; unfold corner_structs; do 4 right; left; reflexivity|]. finm b M E.
  - eexists. split; [apply in_corner; unfold corner_structs; do 6 right; left; reflexivity|]. finm b M E.
  - eexists. split; [apply (@in_col j); [lia|unfold col_structs; in_first; yes; right; left; reflexivity]|]. finm b M E.
  - eexists. split; [apply (@in_row i); [lia|unfold row_structs; in_second; left; reflexivity]|]. finm b M E.
  - eexists. split; [apply (@in_row i); [lia|unfold row_structs; in_second; right; left; reflexivity]|]. finm b M E.
  - eexists. split; [apply (@in_mid i j); [lia|lia|unfold mid_structs; in_first; yes; left; reflexivity]|]. finm b M E.
Qed.
Lemma domino_v b x y : inb row column (x + 1, y)%nat -> is_mine b (x + 1, y)%nat = negb (is_mine b (x, y)) ->
  (forall u v, (u < row)%nat -> (v < column)%nat -> (v <= y + 1 /\ y <= v + 1)%nat -> (u + 1 = x \/ u = x + 2)%nat -> is_mine b (u, v) = true) -> found b.
Proof.
  intros [Hx Hy] E M. cbn [fst snd] in *.
  destruct (cases3 Hr Hx) as [Cx|[Cx|(i & -> & Hi)]], (cases2 Hc Hy) as [->|[->|(j & -> & Hj)]]; try subst x.
  - eexists. split; [apply in_corner; unfold corner_structs; do 1 right; left; reflexivity|]. finm b M E.
  - eexists. split; [apply in_corner; unfold corner_structs; do 3 right; left; reflexivity|]. finm b M E.
  - eexists. split; [apply (@in_col j); [lia|unfold col_structs; in_second; left; reflexivity]|]. finm b M E.
  - eexists. split; [apply in_corner; unfold corner_structs; do 5 right; left; reflexivity|]. finm b M E.
  - eexists. split; [apply in_corner; unfold corner_structs; do 7 right; left; reflexivity|]. finm b M E.
  - eexists. split; [apply (@in_col j); [lia|unfold col_structs; in_second; right; left; reflexivity]|]. finm b M E.
  - eexists. split; [apply (@in_row i); [lia|unfold row_structs; in_first; yes; left; reflexivity]|]. finm b M E.
  - eexists. split; [apply (@in_row i); [lia|unfold row_structs; in_first; yes; right; left; reflexivity]|]. finm b M E.
  - eexists. split; [apply (@in_mid i j); [lia|lia|unfold mid_structs; in_second; yes; left; reflexivity]|]. finm b M E.
Qed.
Lemma adjP p q : adj p q <-> adjb p q = true.
Proof. destruct (adjb_spec p q); split; auto; discriminate. Qed.
Lemma domino_found b p q : domino row column b p q -> found b.
Proof.
  destruct p as [x y]. intros (Hp & Hq & Hs & E & Hn). cbn [fst snd] in Hs.
  assert (G : forall u v, (u < row)%nat -> (v < column)%nat -> (u, v) <> (x, y) -> (u, v) <> q -> adjb (u, v) (x, y) <> adjb (u, v) q -> is_mine b (u, v) = true).
  { intros u v Hu Hv N1 N2 Ha. destruct (is_mine b (u, v)) eqn:Em; auto. exfalso. apply Ha. apply eq_true_iff_eq. rewrite <- !adjP. apply Hn; auto. now split. }
  destruct Hs as [->| ->].
  - apply (@domino_h b x y); auto. intros u v Hu Hv A1 A2. apply G; auto; try (intros H; injection H; lia).
    destruct A2; [rewrite (proj2 (adjb_lia u v x y)), adjb_no by lia|rewrite (@adjb_no u v x y), (proj2 (adjb_lia _ _ _ _)) by lia]; discriminate.
  - apply (@domino_v b x y); auto. intros u v Hu Hv A1 A2. apply G; auto; try (intros H; injection H; lia).
    destruct A2; [rewrite (proj2 (adjb_lia u v x y)), adjb_no by lia|rewrite (@adjb_no u v x y), (proj2 (adjb_lia _ _ _ _)) by lia]; discriminate.
Qed.
Lemma square_found b x y : square row column b x y -> found b.
Proof.
  intros ([Hx Hy] & (m & F1 & F2 & F3 & F4) & Hd). cbn [fst snd] in *.
  assert (M : forall u v, (u < row)%nat -> (v < column)%nat -> (u + 1 = x \/ u = x + 2)%nat -> (v + 1 = y \/ v = y + 2)%nat -> is_mine b (u, v) = true).
  { intros u v Hu Hv A1 A2. apply Hd; auto. now split. } clear Hd.
  assert (G : forall u v k, board_corner row column (u, v) \/ is_mine b (u, v) = k -> ~ ((u = 0 \/ u = row - 1) /\ (v = 0 \/ v = column - 1))%nat -> is_mine b (u, v) = k).
  { intros u v k [[C1 C2]|] N; auto. exfalso. apply N. split; auto. }
  assert (E : forall u v u' v', (u = x \/ u = x + 1)%nat -> (v = y \/ v = y + 1)%nat -> (u' = x \/ u' = x + 1)%nat -> (v' = y \/ v' = y + 1)%nat ->
    ((u = u' /\ v <> v') \/ (u <> u' /\ v = v'))%nat ->
    ~ ((u = 0 \/ u = row - 1) /\ (v = 0 \/ v = column - 1))%nat -> ~ ((u' = 0 \/ u' = row - 1) /\ (v' = 0 \/ v' = column - 1))%nat ->
    is_mine b (u', v') = negb (is_mine b (u, v))).
  { intros u v u' v' [->| ->] [->| ->] [->| ->] [->| ->] Ho N1 N2; try (exfalso; clear - Ho; lia);
      repeat match goal with |- context [is_mine b (?u, ?v)] =>
        first [rewrite (G u v m) by assumption|rewrite (G u v (negb m)) by assumption] end;
      rewrite ?negb_involutive; reflexivity. }
  clear F1 F2 F3 F4 G.
  Ltac fins b M E := repeat (apply Forall_cons; [first [apply hM1; apply M; lia|apply hS2; apply E; lia]|]); apply Forall_nil.
  destruct (cases3 Hr Hx) as [Cx|[Cx|(i & -> & Hi)]], (cases3 Hc Hy) as [Cy|[Cy|(j & -> & Hj)]]; try subst x; try subst y.
  - eexists. split; [apply in_corner; unfold corner_structs; do 12 right; left; reflexivity|]. fins b M E.
  - eexists. split; [apply in_corner; unfold corner_structs; do 15 right; left; reflexivity|]. fins b M E.
  - eexists. split; [apply (@in_col j); [lia|unfold col_structs; in_third; yes; left; reflexivity]|]. fins b M E.
  - eexists. split; [apply in_corner; unfold corner_structs; do 13 right; left; reflexivity|]. fins b M E.
  - eexists. split; [apply in_corner; unfold corner_structs; do 14 right; left; reflexivity|]. fins b M E.
  - eexists. split; [apply (@in_col j); [lia|unfold col_structs; in_third; yes; right; left; reflexivity]|]. fins b M E.
  - eexists. split; [apply (@in_row i); [lia|unfold row_structs; in_third; yes; left; reflexivity]|]. fins b M E.
  - eexists. split; [apply (@in_row i); [lia|unfold row_structs; in_third; yes; right; left; reflexivity]|]. fins b M E.
  - eexists. split; [apply (@in_mid i j); [lia|lia|unfold mid_structs; apply in_or_app; right; in_third; yes; left; reflexivity]|]. fins b M E.
Qed.

(** ** such a place is an ambiguity *)
Lemma unsettled_amb b : unsettled row column b -> exists D, ambiguity row column b D.
Proof.
  intros [([x y] & Hl)|[([x y] & q & Hd)|(x & y & Hs)]].
  - destruct Hl as ([Hx Hy] & Hs & Hm). cbn [fst snd] in *. exists [(x, y)]. apply amb_one; auto; [now split| |intros u v; now apply free_adj].
    destruct (Nat.eq_dec x 0) as [->|Nx]; [exists 1%nat, y|exists (x - 1)%nat, y]; (split; [apply Hm; [split; cbn [fst snd]; lia|apply adjP, adjb_lia; lia]|split; [split; cbn [fst snd]; lia|apply adjb_lia; lia]]).
  - destruct q as [x' y']. destruct Hd as (Hp & Hq & Ho & E & Hn). cbn [fst snd] in Ho. exists [(x, y); (x', y')]. apply amb_two; auto.
    + apply adjb_lia. destruct Ho as [H|H]; injection H as -> ->; lia.
    + intros u v (Hu & Hv & Hm) N1 N2. apply eq_true_iff_eq. rewrite <- !adjP. apply Hn; auto; [now split|intros H; apply N1; now injection H|intros H; apply N2; now injection H].
  - destruct Hs as ([Hx Hy] & (m & F1 & F2 & F3 & F4) & Hd). cbn [fst snd] in *.
    assert (Hd' : forall u v, free row column b u v -> ~ ((u + 1 = x \/ u = x + 2) /\ (v + 1 = y \/ v = y + 2))%nat).
    { intros u v (Hu & Hv & Hm) [A1 A2]. rewrite Hd in Hm; auto; [discriminate|now split]. }
    unfold board_corner in F1, F2, F3, F4. cbn [fst snd] in *.
    assert (Cx : (x = 0 \/ x + 1 = row - 1 \/ ~ (x = 0 \/ x + 1 = row - 1))%nat) by lia.
    assert (Cy : (y = 0 \/ y + 1 = column - 1 \/ ~ (y = 0 \/ y + 1 = column - 1))%nat) by lia.
    Ltac val F := destruct F as [F|F]; [exfalso; lia|].
    destruct Cx as [Cx|[Cx|Cx]], Cy as [Cy|[Cy|Cy]].
    1: { val F2. val F3. val F4. exists [(x, y); (x, y + 1); (x + 1, y + 1); (x + 1, y)]%nat. apply amb_corner; [split; cbn [fst snd]; lia|split; cbn [fst snd]; lia|lia|lia|rewrite F4, F2; now rewrite negb_involutive|rewrite F4, F3; now rewrite negb_involutive|].
         intros u v Hf Ha. apply adjb_lia in Ha. specialize (Hd' u v Hf). destruct Hf as (Hu & Hv & _). lia. }
    1: { val F1. val F3. val F4. exists [(x, y + 1); (x, y); (x + 1, y); (x + 1, y + 1)]%nat. apply amb_corner; [split; cbn [fst snd]; lia|split; cbn [fst snd]; lia|lia|lia|rewrite F3, F1; auto|rewrite F3, F4; auto|].
         intros u v Hf Ha. apply adjb_lia in Ha. specialize (Hd' u v Hf). destruct Hf as (Hu & Hv & _). lia. }
    2: { val F1. val F2. val F4. exists [(x + 1, y); (x + 1, y + 1); (x, y + 1); (x, y)]%nat. apply amb_corner; [split; cbn [fst snd]; lia|split; cbn [fst snd]; lia|lia|lia|rewrite F2, F4; auto|rewrite F2, F1; auto|].
         intros u v Hf Ha. apply adjb_lia in Ha. specialize (Hd' u v Hf). destruct Hf as (Hu & Hv & _). lia. }
    2: { val F1. val F2. val F3. exists [(x + 1, y + 1); (x + 1, y); (x, y); (x, y + 1)]%nat. apply amb_corner; [split; cbn [fst snd]; lia|split; cbn [fst snd]; lia|lia|lia|rewrite F1, F3; now rewrite negb_involutive|rewrite F1, F2; now rewrite negb_involutive|].
         intros u v Hf Ha. apply adjb_lia in Ha. specialize (Hd' u v Hf). destruct Hf as (Hu & Hv & _). lia. }
    all: val F1; val F2; val F3; val F4; exists [(x, y); (x, y + 1); (x + 1, y + 1); (x + 1, y)]%nat; apply amb_square; auto; [split; cbn [fst snd]; lia|congruence..].
Qed.

Theorem unsolvable_ok b : rect row column b -> exists r, unsolvable_structure b = Ok r /\
  (r = true <-> unsettled row column b).
Proof.
  intros Hb. unfold unsolvable_structure. rewrite (ncolsR_ok Hb) by lia. rewrite (nrows_ok Hb). cbn [bind].
  destruct (Nat.ltb_spec row 3), (Nat.ltb_spec column 3); try lia. cbn [orb].
  rewrite (@findM_ok _ _ (forallb (holdsb b))).
  2:{ intros s Hs. apply struct_ok_eq with (row := row) (column := column); auto. pose proof structs_in as H1. rewrite Forall_forall in H1. auto. }
  eexists. split; [reflexivity|]. split.
  - intros H1. apply existsb_exists in H1 as (s & Hs & H1). apply forallb_holds in H1. eapply structs_amb; eauto.
  - intros H1. apply existsb_exists. assert (F : found b).
    { destruct H1 as [(p & H1)|[(p & q & H1)|(x & y & H1)]]; [eapply lone_found|eapply domino_found|eapply square_found]; eauto. }
    destruct F as (s & Hs & F). exists s. split; auto. now apply forallb_holds.
Qed.
End I.
