(** * UnsolvProofs: every structure found by [unsolvable_structure] is a real ambiguity. *)
From Verif Require Import Base Spec BaseFacts Matrix MatrixProofs EnumProofs Solvable SolvableSpec SolvableProofs.
Open Scope Z_scope.

Definition minez (b : board) (p : pos) : Z := if is_mine b p then -1 else 0.
Definition holds (b : board) (a : atom) : Prop := fold_left (fun s p => s + minez b p) (fst a) 0 = snd a.
Lemma M1_ok b x y : holds b (M1 x y) -> is_mine b (x, y) = true.
Proof. unfold holds, M1, minez. cbn. destruct (is_mine b (x, y)); [auto|discriminate]. Qed.
Lemma F0_ok b x y : holds b (F0 x y) -> is_mine b (x, y) = false.
Proof. unfold holds, F0, minez. cbn. destruct (is_mine b (x, y)); [discriminate|auto]. Qed.
Lemma S2_ok b x y x' y' : holds b (S2 x y x' y') -> is_mine b (x', y') = negb (is_mine b (x, y)).
Proof. unfold holds, S2, minez. cbn. destruct (is_mine b (x, y)), (is_mine b (x', y')); (discriminate || auto). Qed.
Lemma S3_ok b x y x' y' x2 y2 : holds b (S3 x y x' y' x2 y2) ->
  is_mine b (x, y) = true /\ is_mine b (x', y') = true /\ is_mine b (x2, y2) = true.
Proof. unfold holds, S3, minez. cbn. destruct (is_mine b (x, y)), (is_mine b (x', y')), (is_mine b (x2, y2)); (discriminate || auto). Qed.

Lemma adjb_lia x y x' y' : adjb (x, y) (x', y') = true <->
  ((x <> x' \/ y <> y') /\ x <= x' + 1 /\ x' <= x + 1 /\ y <= y' + 1 /\ y' <= y + 1)%nat.
Proof. unfold adjb, posb, nearb. cbn [fst snd]. lia. Qed.

(** [D] is an ambiguity: at most four cells, flipping all of them changes no number of a safe cell
    outside; its safe cells are not zeros. *)
Definition ambiguity (row column : nat) (b : board) (D : list pos) : Prop :=
  twin row column b D /\ (length D <= 4)%nat /\
  forall d, In d D -> is_mine b d = false -> exists q, inb row column q /\ adj d q /\ is_mine b q = true.

Ltac facts H :=
  repeat match type of H with
  | Forall _ (?a :: _) => let A := fresh "A" in apply Forall_cons_iff in H as [A H];
      lazymatch a with
      | M1 _ _ => apply M1_ok in A
      | F0 _ _ => apply F0_ok in A
      | S2 _ _ _ _ => apply S2_ok in A
      | S3 _ _ _ _ _ _ => apply S3_ok in A as (? & ? & ?)
      end
  end; clear H.


Lemma adj_mine row column b d a c : is_mine b (a, c) = true -> inb row column (a, c) -> adjb d (a, c) = true ->
  exists q, inb row column q /\ adj d q /\ is_mine b q = true.
Proof. intros H Hi Ha. exists (a, c). split; [auto|split; [|auto]]. now destruct (adjb_spec d (a, c)). Qed.
Lemma adjb_no x y x' y' :
  ~ ((x <> x' \/ y <> y') /\ x <= x' + 1 /\ x' <= x + 1 /\ y <= y' + 1 /\ y' <= y + 1)%nat -> adjb (x, y) (x', y') = false.
Proof. intros H. destruct (adjb (x, y) (x', y')) eqn:E; auto. apply adjb_lia in E. contradiction. Qed.
Lemma notin_pos (x y a c : nat) D : ~ In (x, y) ((a, c) :: D) -> ~ (x = a /\ y = c) /\ ~ In (x, y) D.
Proof. intros H. split; [intros [-> ->]; apply H; now left|intros H'; apply H; now right]. Qed.

Ltac adjv := first [rewrite (proj2 (adjb_lia _ _ _ _)) by lia|rewrite adjb_no by lia].
Ltac nodup := repeat (apply NoDup_cons; [cbn [In]; intros HH; repeat match type of HH with _ \/ _ => destruct HH as [HH|HH] end; try contradiction; injection HH; lia|]); apply NoDup_nil.
Ltac inbs := repeat (apply Forall_cons; [split; cbn [fst snd]; lia|]); apply Forall_nil.
Ltac near_mine b :=
  let d := fresh "d" in let Hd := fresh "Hd" in let Hs := fresh "Hs" in
  intros d Hd Hs; cbn [In] in Hd; repeat match type of Hd with _ \/ _ => destruct Hd as [Hd|Hd] end; try contradiction; subst d; try congruence;
  clear Hs;
  match goal with
  | H : is_mine b (?a, ?c) = true |- exists q, inb _ _ q /\ adj ?d q /\ is_mine b q = true =>
      apply (@adj_mine _ _ _ _ _ _ H); [split; cbn [fst snd]; lia|apply adjb_lia; lia]
  end.
Ltac safe_one b := match goal with H : is_mine b ?p = false |- _ => exists p; split; [cbn [In]; tauto|exact H] end.

Section G.
Variables (row column : nat) (b : board).
(** a safe cell of the board *)
Definition free (x y : nat) : Prop := (x < row)%nat /\ (y < column)%nat /\ is_mine b (x, y) = false.

(** One safe cell all of whose neighbours are mines. *)
Lemma amb_one x y : inb row column (x, y) -> is_mine b (x, y) = false ->
  (exists a c, is_mine b (a, c) = true /\ inb row column (a, c) /\ adjb (x, y) (a, c) = true) ->
  (forall u v, free u v -> adjb (u, v) (x, y) = false) ->
  ambiguity row column b [(x, y)].
Proof.
  intros Hi Hs (a & c & H1 & H2 & H3) Hf. split; [split; [nodup|split; [auto|split]]|split; [cbn; lia|]].
  - exists (x, y). split; [now left|auto].
  - intros [u v] [Hu Hv] Hm _. unfold count. cbn [filter]. rewrite Hf by (split; auto). reflexivity.
  - intros d [<-|[]] _. eapply adj_mine; eauto.
Qed.
(** Two neighbouring cells, one of them a mine, with the same safe neighbours. *)
Lemma amb_two x y x' y' : inb row column (x, y) -> inb row column (x', y') -> adjb (x, y) (x', y') = true ->
  is_mine b (x', y') = negb (is_mine b (x, y)) ->
  (forall u v, free u v -> ~ (u = x /\ v = y) -> ~ (u = x' /\ v = y') -> adjb (u, v) (x, y) = adjb (u, v) (x', y')) ->
  ambiguity row column b [(x, y); (x', y')].
Proof.
  intros Hi Hi' Ha Hs Hf. assert (Ha' : adjb (x', y') (x, y) = true) by (apply adjb_lia; apply adjb_lia in Ha; lia).
  split; [split; [|split; [auto|split]]|split; [cbn; lia|]].
  - apply adjb_lia in Ha. nodup.
  - destruct (is_mine b (x, y)) eqn:E; [exists (x', y')|exists (x, y)]; (split; [cbn [In]; tauto|auto]).
  - intros [u v] [Hu Hv] Hm HD. apply notin_pos in HD as [HD1 HD]. apply notin_pos in HD as [HD2 _]. cbn [fst snd] in *.
    unfold count. cbn [filter]. rewrite (Hf u v) by (repeat split; auto). rewrite Hs.
    destruct (adjb (u, v) (x', y')), (is_mine b (x, y)); reflexivity.
  - intros d [<-|[<-|[]]] Hd.
    + eapply adj_mine; [|exact Hi'|exact Ha]. now rewrite Hs, Hd.
    + eapply adj_mine; [|exact Hi|exact Ha']. rewrite Hs in Hd. now destruct (is_mine b (x, y)).
Qed.
(** A square whose diagonals carry different values and whose diagonal neighbours are not free. *)
Lemma amb_square x y x' y' : (x' = x + 1)%nat -> (y' = y + 1)%nat -> inb row column (x', y') ->
  is_mine b (x, y') = negb (is_mine b (x, y)) -> is_mine b (x', y) = negb (is_mine b (x, y)) ->
  is_mine b (x', y') = is_mine b (x, y) ->
  (forall u v, free u v -> ~ ((u + 1 = x \/ u = x + 2) /\ (v + 1 = y \/ v = y + 2))%nat) ->
  ambiguity row column b [(x, y); (x, y'); (x', y'); (x', y)]%nat.
Proof.
  intros -> -> [Hi Hj] H1 H2 H3 Hf. cbn [fst snd] in *.
  split; [split; [nodup|split; [inbs|split]]|split; [cbn; lia|]].
  - destruct (is_mine b (x, y)) eqn:E; [exists (x, y + 1)%nat|exists (x, y)]; (split; [cbn [In]; tauto|auto]).
  - intros [u v] [Hu Hv] Hm HD. do 4 apply notin_pos in HD as [? HD]. clear HD. cbn [fst snd] in *.
    specialize (Hf u v (conj Hu (conj Hv Hm))).
    unfold count. cbn [filter]. rewrite H1, H2, H3.
    assert (Hx : (u + 1 = x \/ u = x \/ u = x + 1 \/ u = x + 2 \/ u + 1 < x \/ u > x + 2)%nat) by lia.
    assert (Hy : (v + 1 = y \/ v = y \/ v = y + 1 \/ v = y + 2 \/ v + 1 < y \/ v > y + 2)%nat) by lia.
    clear H1 H2 H3 Hi Hj Hu Hv Hm.
    destruct Hx as [Hx|[Hx|[Hx|[Hx|[Hx|Hx]]]]]; destruct Hy as [Hy|[Hy|[Hy|[Hy|[Hy|Hy]]]]]; try (exfalso; lia);
      do 4 adjv; destruct (is_mine b (x, y)); reflexivity.
  - destruct (is_mine b (x, y)) eqn:E; cbn [negb] in *; near_mine b.
Qed.
(** A square in a corner: the corner cell [(kx, ky)] may be anything. *)
Lemma amb_corner kx ky x y : inb row column (kx, ky) -> inb row column (x, y) ->
  (kx = 0 /\ x = 1 \/ kx = row - 1 /\ x + 1 = kx)%nat -> (ky = 0 /\ y = 1 \/ ky = column - 1 /\ y + 1 = ky)%nat ->
  is_mine b (x, y) = negb (is_mine b (kx, y)) -> is_mine b (x, y) = negb (is_mine b (x, ky)) ->
  (forall u v, free u v -> adjb (u, v) (x, y) = true -> (u = kx \/ u = x \/ v = ky \/ v = y)%nat) ->
  ambiguity row column b [(kx, ky); (kx, y); (x, y); (x, ky)].
Proof.
  intros [Hk1 Hk2] [Hi Hj] Hx Hy H1 H2 Hf. cbn [fst snd] in *.
  assert (H3 : is_mine b (kx, y) = negb (is_mine b (x, y))) by (rewrite H1, negb_involutive; auto).
  assert (H4 : is_mine b (x, ky) = negb (is_mine b (x, y))) by (rewrite H2, negb_involutive; auto). clear H1 H2.
  split; [split; [nodup|split; [inbs|split]]|split; [cbn; lia|]].
  - destruct (is_mine b (x, y)) eqn:E; [exists (kx, y)|exists (x, y)]; (split; [cbn [In]; tauto|auto]).
  - intros [u v] [Hu Hv] Hm HD. do 4 apply notin_pos in HD as [? HD]. clear HD. cbn [fst snd] in *.
    specialize (Hf u v (conj Hu (conj Hv Hm))). rewrite adjb_lia in Hf.
    unfold count. cbn [filter]. rewrite H3, H4. clear H3 H4 Hm.
    set (third := fun u x kx : nat => ((u + 1 = x /\ x + 1 = kx) \/ (u = x + 1 /\ x = kx + 1))%nat).
    assert (Cu : (u = kx \/ u = x \/ third u x kx \/ (kx + 1 < u /\ x + 1 < u) \/ (u + 1 < kx /\ u + 1 < x))%nat) by (unfold third; clear - Hx Hu Hk1; lia).
    assert (Cv : (v = ky \/ v = y \/ third v y ky \/ (ky + 1 < v /\ y + 1 < v) \/ (v + 1 < ky /\ v + 1 < y))%nat) by (unfold third; clear - Hy Hv Hk2; lia).
    assert (Nx : (kx + 1 = x \/ x + 1 = kx)%nat) by (clear - Hx; lia). assert (Ny : (ky + 1 = y \/ y + 1 = ky)%nat) by (clear - Hy; lia).
    assert (Nt : third u x kx -> third v y ky -> False) by (unfold third; clear - Hf Nx Ny; lia).
    clear Hf Hx Hy Hk1 Hk2 Hi Hj Hu Hv.
    destruct Cu as [Cu|[Cu|[Cu|[Cu|Cu]]]]; destruct Cv as [Cv|[Cv|[Cv|[Cv|Cv]]]]; try tauto; clear Nt;
      unfold third in *; try (exfalso; lia); do 4 adjv; destruct (is_mine b (x, y)), (is_mine b (kx, ky)); reflexivity.
  - destruct (is_mine b (x, y)) eqn:E; cbn [negb] in *; near_mine b.
Qed.
(** ** the same, as places that cannot be settled *)
Lemma free_adj u v x y : (forall q, inb row column q -> adj (x, y) q -> is_mine b q = true) -> free u v -> adjb (u, v) (x, y) = false.
Proof.
  intros H (Hu & Hv & Hm). destruct (adjb (u, v) (x, y)) eqn:E; auto. apply adjb_lia in E.
  rewrite (H (u, v)) in Hm; [discriminate|now split|]. assert (A : adjb (x, y) (u, v) = true) by (apply adjb_lia; lia). now destruct (adjb_spec (x, y) (u, v)).
Qed.
Lemma uns_one x y : inb row column (x, y) -> is_mine b (x, y) = false ->
  (forall u v, free u v -> adjb (u, v) (x, y) = false) -> unsettled row column b.
Proof.
  intros Hi Hs Hf. left. exists (x, y). split; auto. split; auto. intros [u v] [Hu Hv] Ha. cbn [fst snd] in *.
  destruct (is_mine b (u, v)) eqn:E; auto. exfalso. assert (A : adjb (x, y) (u, v) = true) by (destruct (adjb_spec (x, y) (u, v)); auto).
  apply adjb_lia in A. assert (A' : adjb (u, v) (x, y) = true) by (apply adjb_lia; lia). rewrite Hf in A'; [discriminate|split; auto].
Qed.
Lemma uns_two x y x' y' : inb row column (x, y) -> inb row column (x', y') ->
  ((x = x' /\ (y + 1 = y' \/ y' + 1 = y)) \/ (y = y' /\ (x + 1 = x' \/ x' + 1 = x)))%nat ->
  is_mine b (x', y') = negb (is_mine b (x, y)) ->
  (forall u v, free u v -> ~ (u = x /\ v = y) -> ~ (u = x' /\ v = y') -> adjb (u, v) (x, y) = adjb (u, v) (x', y')) ->
  unsettled row column b.
Proof.
  intros Hi Hi' Ho Hs Hf. right. left.
  assert (G : forall r, inb row column r -> is_mine b r = false -> r <> (x, y) -> r <> (x', y') -> (adj r (x, y) <-> adj r (x', y'))).
  { intros [u v] [Hu Hv] Hm N1 N2. cbn [fst snd] in *. assert (E := Hf u v (conj Hu (conj Hv Hm))).
    specialize (E ltac:(intros [-> ->]; auto) ltac:(intros [-> ->]; auto)).
    destruct (adjb_spec (u, v) (x, y)), (adjb_spec (u, v) (x', y')); try discriminate; tauto. }
  assert (C : ((x', y') = (x, y + 1) \/ (x', y') = (x + 1, y) \/ (x, y) = (x', y' + 1) \/ (x, y) = (x' + 1, y'))%nat).
  { destruct Ho as [[-> [E|E]]|[-> [E|E]]]; rewrite <- E; auto. }
  destruct C as [C|[C|[C|C]]].
  1-2: exists (x, y), (x', y'); split; [auto|split; [auto|split; [cbn [fst snd]; auto|split; auto]]].
  all: exists (x', y'), (x, y); split; [auto|split; [auto|split; [cbn [fst snd]; auto|split; [rewrite Hs; now rewrite negb_involutive|]]]];
    intros r R1 R2 R3 R4; symmetry; auto.
Qed.
Lemma uns_square x y x' y' : (x' = x + 1)%nat -> (y' = y + 1)%nat -> inb row column (x', y') ->
  is_mine b (x, y') = negb (is_mine b (x, y)) -> is_mine b (x', y) = negb (is_mine b (x, y)) ->
  is_mine b (x', y') = is_mine b (x, y) ->
  (forall u v, free u v -> ~ ((u + 1 = x \/ u = x + 2) /\ (v + 1 = y \/ v = y + 2))%nat) -> unsettled row column b.
Proof.
  intros -> -> Hi H1 H2 H3 Hf. right. right. exists x, y. split; auto. split.
  - exists (is_mine b (x, y)). cbn zeta. split; [now right|split; [now right|split; now right]].
  - intros [u v] [Hu Hv] C1 C2. cbn [fst snd] in *. destruct (is_mine b (u, v)) eqn:E; auto. exfalso. apply (Hf u v); auto. split; auto.
Qed.
Lemma uns_corner kx ky x y : inb row column (kx, ky) -> inb row column (x, y) ->
  (kx = 0 /\ x = 1 \/ kx = row - 1 /\ x + 1 = kx)%nat -> (ky = 0 /\ y = 1 \/ ky = column - 1 /\ y + 1 = ky)%nat ->
  is_mine b (x, y) = negb (is_mine b (kx, y)) -> is_mine b (x, y) = negb (is_mine b (x, ky)) ->
  (forall u v, free u v -> adjb (u, v) (x, y) = true -> (u = kx \/ u = x \/ v = ky \/ v = y)%nat) -> unsettled row column b.
Proof.
  intros [Hk1 Hk2] [Hi1 Hi2] Hx Hy H1 H2 Hf. cbn [fst snd] in *. right. right.
  assert (Hcor : board_corner row column (kx, ky)) by (split; cbn [fst snd]; lia).
  assert (H3 : is_mine b (kx, y) = negb (is_mine b (x, y))) by (rewrite H1, negb_involutive; auto).
  assert (H4 : is_mine b (x, ky) = negb (is_mine b (x, y))) by (rewrite H2, negb_involutive; auto).
  assert (Hd : forall r, inb row column r -> (fst r <> kx /\ fst r <> x /\ (fst r <= x + 1 /\ x <= fst r + 1))%nat ->
     (snd r <> ky /\ snd r <> y /\ (snd r <= y + 1 /\ y <= snd r + 1))%nat -> is_mine b r = true).
  { intros [u v] [Hu Hv] C1 C2. cbn [fst snd] in *. destruct (is_mine b (u, v)) eqn:E; auto. exfalso.
    assert (A : adjb (u, v) (x, y) = true) by (apply adjb_lia; clear - C1 C2; lia). specialize (Hf u v (conj Hu (conj Hv E)) A). clear - C1 C2 Hf; lia. }
  clear Hf H1 H2.
  assert (Cx : (exists X, (kx = X /\ x = X + 1 \/ x = X /\ kx = X + 1) /\ forall r, inb row column r -> (fst r + 1 = X \/ fst r = X + 2) -> (fst r <> kx /\ fst r <> x /\ fst r <= x + 1 /\ x <= fst r + 1))%nat).
  { exists (Nat.min kx x). clear - Hx Hk1. split; [lia|]. intros [u v] [Hu Hv]. cbn [fst snd] in *. lia. }
  assert (Cy : (exists Y, (ky = Y /\ y = Y + 1 \/ y = Y /\ ky = Y + 1) /\ forall r, inb row column r -> (snd r + 1 = Y \/ snd r = Y + 2) -> (snd r <> ky /\ snd r <> y /\ snd r <= y + 1 /\ y <= snd r + 1))%nat).
  { exists (Nat.min ky y). clear - Hy Hk2. split; [lia|]. intros [u v] [Hu Hv]. cbn [fst snd] in *. lia. }
  destruct Cx as (X & CX & FX), Cy as (Y & CY & FY). exists X, Y.
  split; [clear - CX CY Hk1 Hk2 Hi1 Hi2; split; cbn [fst snd]; lia|]. split.
  - clear FX FY Hd. destruct CX as [[-> ->]|[-> ->]], CY as [[-> ->]|[-> ->]].
    + exists (is_mine b (X + 1, Y + 1)%nat). cbn zeta. split; [now left|split; [now right|split; [now right|now right]]].
    + exists (negb (is_mine b (X + 1, Y)%nat)). cbn zeta. rewrite negb_involutive. split; [now right|split; [now left|split; [now right|now right]]].
    + exists (negb (is_mine b (X, Y + 1)%nat)). cbn zeta. rewrite negb_involutive. split; [now right|split; [now right|split; [now left|now right]]].
    + exists (is_mine b (X, Y)%nat). cbn zeta. split; [now right|split; [now right|split; [now right|now left]]].
  - intros r Hr C1 C2. apply Hd; auto.
Qed.
End G.

Lemma not_mine_pos b x y a c : is_mine b (x, y) = false -> is_mine b (a, c) = true -> ~ (x = a /\ y = c).
Proof. intros H H' [-> ->]. congruence. Qed.
Lemma adjb_eq u v x y x' y' : (adjb (u, v) (x, y) = true -> adjb (u, v) (x', y') = true) ->
  (adjb (u, v) (x', y') = true -> adjb (u, v) (x, y) = true) -> adjb (u, v) (x, y) = adjb (u, v) (x', y').
Proof. intros H H'. apply Bool.eq_true_iff_eq. split; auto. Qed.

(* a contradiction between [(u, v)] being free and the known mines *)
(* lia would read every equation between booleans *)
Ltac nl := repeat match goal with A : is_mine _ _ = _ |- _ => clear A end; lia.
Ltac light := repeat match goal with H : ~ _ |- _ => clear H | H : _ /\ _ |- _ => clear H end.
Ltac blocked b u v Hm :=
  first [exfalso; light; nl
  | match goal with
    | H : is_mine b (?a, ?c) = true |- _ =>
        exfalso; apply (@not_mine_pos b u v a c Hm H); light;
        split; nl
    end
  | exfalso; nl].
Ltac inb1 := split; cbn [fst snd]; nl.
Ltac cases_near u v x y :=
  let Cu := fresh "Cu" in let Cv := fresh "Cv" in
  assert (Cu : (u + 1 = x \/ u = x \/ u = x + 1)%nat) by nl;
  assert (Cv : (v + 1 = y \/ v = y \/ v = y + 1)%nat) by nl;
  destruct Cu as [Cu|[Cu|Cu]]; destruct Cv as [Cv|[Cv|Cv]].
Ltac go_one b x y :=
  apply (@uns_one _ _ _ x y); [inb1|assumption|
    let u := fresh "u" in let v := fresh "v" in let Hm := fresh "Hm" in let Hu := fresh "Hu" in let Hv := fresh "Hv" in
    intros u v (Hu & Hv & Hm); destruct (adjb (u, v) (x, y)) eqn:?HE; [|reflexivity]; apply adjb_lia in HE;
    cases_near u v x y; blocked b u v Hm].
Ltac go_two b x y x' y' :=
  apply (@uns_two _ _ _ x y x' y'); [inb1|inb1|nl|assumption|
    let u := fresh "u" in let v := fresh "v" in let Hm := fresh "Hm" in let Hu := fresh "Hu" in let Hv := fresh "Hv" in
    intros u v (Hu & Hv & Hm) ? ?; apply adjb_eq; rewrite !adjb_lia;
    [intros HE; cases_near u v x y|intros HE; cases_near u v x' y'];
    first [nl|blocked b u v Hm]].
Ltac negs b := repeat match goal with A : is_mine b _ = negb (is_mine b _) |- _ => revert A end.
Ltac go_square b x y x' y' :=
  assert (is_mine b (x, y') = negb (is_mine b (x, y)) /\ is_mine b (x', y) = negb (is_mine b (x, y)) /\
    is_mine b (x', y') = is_mine b (x, y)) as (? & ? & ?)
  by (negs b; destruct (is_mine b (x, y)), (is_mine b (x, y')), (is_mine b (x', y)), (is_mine b (x', y')); cbn [negb]; intros; repeat split; congruence);
  apply (@uns_square _ _ _ x y x' y'); [nl|nl|inb1|assumption|assumption|assumption|
    let u := fresh "u" in let v := fresh "v" in let Hm := fresh "Hm" in let Hu := fresh "Hu" in let Hv := fresh "Hv" in
    intros u v (Hu & Hv & Hm) [[?C|?C] [?D|?D]]; blocked b u v Hm].
Ltac go_corner b kx ky x y :=
  assert (is_mine b (x, y) = negb (is_mine b (kx, y)) /\ is_mine b (x, y) = negb (is_mine b (x, ky))) as (? & ?)
  by (negs b; destruct (is_mine b (x, y)), (is_mine b (kx, y)), (is_mine b (x, ky)); cbn [negb]; intros; repeat split; congruence);
  apply (@uns_corner _ _ _ kx ky x y); [inb1|inb1|nl|nl|assumption|assumption|
    let u := fresh "u" in let v := fresh "v" in let Hm := fresh "Hm" in let Hu := fresh "Hu" in let Hv := fresh "Hv" in
    intros u v (Hu & Hv & Hm); rewrite adjb_lia; intros HE; cases_near u v x y; first [nl|blocked b u v Hm]].
Ltac pick Hs := repeat (destruct Hs as [Hs|Hs]; [subst|]); [..|contradiction].

Section U.
Variables (row column : nat) (b : board).
Hypothesis Hr : (3 <= row)%nat.
Hypothesis Hc : (3 <= column)%nat.
Let amb_ex (s : list atom) := Forall (holds b) s -> unsettled row column b.

Lemma row_amb i s : (i < row - 2)%nat -> In s (row_structs row column i) -> amb_ex s.
Proof.
  intros Hi Hs HF. unfold row_structs in Hs. apply in_app_or in Hs as [Hs|Hs]; [|apply in_app_or in Hs as [Hs|Hs]].
  - destruct (Nat.ltb_spec i (row - 3)); [|contradiction].
    destruct Hs as [Hs|[Hs|[]]]; subst; facts HF.
    + go_two b (i+1)%nat 0%nat (i+2)%nat 0%nat.
    + go_two b (i+1)%nat (column-1)%nat (i+2)%nat (column-1)%nat.
  - destruct Hs as [Hs|[Hs|[Hs|[Hs|[]]]]]; subst; facts HF.
    + go_two b (i+1)%nat 0%nat (i+1)%nat 1%nat.
    + go_two b (i+1)%nat (column-1)%nat (i+1)%nat (column-2)%nat.
    + go_one b (i+1)%nat 0%nat.
    + go_one b (i+1)%nat (column-1)%nat.
  - destruct (Nat.ltb_spec i (row - 3)); [|contradiction].
    destruct Hs as [Hs|[Hs|[]]]; subst; facts HF.
    + go_square b (i+1)%nat 0%nat (i+2)%nat 1%nat.
    + go_square b (i+1)%nat (column-2)%nat (i+2)%nat (column-1)%nat.
Qed.
Lemma col_amb j s : (j < column - 2)%nat -> In s (col_structs row column j) -> amb_ex s.
Proof.
  intros Hi Hs HF. unfold col_structs in Hs. apply in_app_or in Hs as [Hs|Hs]; [|apply in_app_or in Hs as [Hs|Hs]].
  - destruct (Nat.ltb_spec j (column - 3)); [|contradiction].
    destruct Hs as [Hs|[Hs|[]]]; subst; facts HF.
    + go_two b 0%nat (j+1)%nat 0%nat (j+2)%nat.
    + go_two b (row-1)%nat (j+1)%nat (row-1)%nat (j+2)%nat.
  - destruct Hs as [Hs|[Hs|[Hs|[Hs|[]]]]]; subst; facts HF.
    + go_two b 0%nat (j+1)%nat 1%nat (j+1)%nat.
    + go_two b (row-1)%nat (j+1)%nat (row-2)%nat (j+1)%nat.
    + go_one b 0%nat (j+1)%nat.
    + go_one b (row-1)%nat (j+1)%nat.
  - destruct (Nat.ltb_spec j (column - 3)); [|contradiction].
    destruct Hs as [Hs|[Hs|[]]]; subst; facts HF.
    + go_square b 0%nat (j+1)%nat 1%nat (j+2)%nat.
    + go_square b (row-2)%nat (j+1)%nat (row-1)%nat (j+2)%nat.
Qed.
Lemma corner_amb s : In s (corner_structs row column) -> amb_ex s.
Proof.
  intros Hs HF. unfold corner_structs in Hs.
  destruct Hs as [Hs|[Hs|[Hs|[Hs|[Hs|[Hs|[Hs|[Hs|[Hs|[Hs|[Hs|[Hs|[Hs|[Hs|[Hs|[Hs|[]]]]]]]]]]]]]]]]]; subst; facts HF.
  - go_two b 0%nat 0%nat 0%nat 1%nat.
  - go_two b 0%nat 0%nat 1%nat 0%nat.
  - go_two b 0%nat (column-1)%nat 0%nat (column-2)%nat.
  - go_two b 0%nat (column-1)%nat 1%nat (column-1)%nat.
  - go_two b (row-1)%nat 0%nat (row-1)%nat 1%nat.
  - go_two b (row-1)%nat 0%nat (row-2)%nat 0%nat.
  - go_two b (row-1)%nat (column-1)%nat (row-1)%nat (column-2)%nat.
  - go_two b (row-1)%nat (column-1)%nat (row-2)%nat (column-1)%nat.
  - go_one b 0%nat 0%nat.
  - go_one b 0%nat (column-1)%nat.
  - go_one b (row-1)%nat (column-1)%nat.
  - go_one b (row-1)%nat 0%nat.
  - go_corner b 0%nat 0%nat 1%nat 1%nat.
  - go_corner b (row-1)%nat 0%nat (row-2)%nat 1%nat.
  - go_corner b (row-1)%nat (column-1)%nat (row-2)%nat (column-2)%nat.
  - go_corner b 0%nat (column-1)%nat 1%nat (column-2)%nat.
Qed.
Lemma mid_amb p s : (fst p < row - 2)%nat -> (snd p < column - 2)%nat -> In s (mid_structs row column p) -> amb_ex s.
Proof.
  destruct p as [i j]. cbn [fst snd]. intros Hi Hj Hs HF. unfold mid_structs in Hs.
  apply in_app_or in Hs as [Hs|Hs]; [|apply in_app_or in Hs as [Hs|Hs]; [|apply in_app_or in Hs as [Hs|Hs]]].
  - destruct (Nat.ltb_spec j (column - 3)); [|contradiction]. destruct Hs as [Hs|[]]; subst; facts HF.
    go_two b (i+1)%nat (j+1)%nat (i+1)%nat (j+2)%nat.
  - destruct (Nat.ltb_spec i (row - 3)); [|contradiction]. destruct Hs as [Hs|[]]; subst; facts HF.
    go_two b (i+1)%nat (j+1)%nat (i+2)%nat (j+1)%nat.
  - destruct Hs as [Hs|[]]; subst; facts HF. go_one b (i+1)%nat (j+1)%nat.
  - destruct (Nat.ltb_spec j (column - 3)); [|contradiction]. destruct (Nat.ltb_spec i (row - 3)); [|contradiction].
    destruct Hs as [Hs|[]]; subst; facts HF. go_square b (i+1)%nat (j+1)%nat (i+2)%nat (j+2)%nat.
Qed.
Lemma structs_amb s : In s (structs row column) -> amb_ex s.
Proof.
  unfold structs. intros H. apply in_app_or in H as [H|H]; [|apply in_app_or in H as [H|H]; [|apply in_app_or in H as [H|H]]].
  - apply in_flat_map in H as (i & Hi & H). apply in_seq in Hi. apply (@row_amb i); auto; lia.
  - apply in_flat_map in H as (i & Hi & H). apply in_seq in Hi. apply (@col_amb i); auto; lia.
  - now apply corner_amb.
  - apply in_flat_map in H as (p & Hp & H). apply in_grid in Hp. destruct Hp. apply (@mid_amb p); auto.
Qed.
End U.

(** ** the code evaluates exactly the structures *)
Definition atom_in (row column : nat) (a : atom) : Prop := Forall (inb row column) (fst a).
Definition holdsb (b : board) (a : atom) : bool := fold_left (fun s p => s + minez b p) (fst a) 0 =? snd a.
Lemma atom_ok_eq row column b a : rect row column b -> atom_in row column a -> atom_ok b a = Ok (holdsb b a).
Proof.
  intros Hr Ha. unfold atom_ok, holdsb.
  unfold atom_in in Ha. rewrite Forall_forall in Ha.
  destruct (@foldM_pure _ _ (fun s '(x, y) => let* v := mine_cell b x y in Ok (s + v)) (fun s p => s + minez b p)
    (fun _ => True) (fst a) 0 I) as [E _].
  { intros s [x y] Hin _. split; [|exact I]. unfold mine_cell. rewrite (get_ok Hr) by auto. reflexivity. }
  rewrite E. reflexivity.
Qed.
Lemma struct_ok_eq row column b l : rect row column b -> Forall (atom_in row column) l -> struct_ok b l = Ok (forallb (holdsb b) l).
Proof.
  intros Hr. induction 1 as [|a l Ha Hl IH]; cbn [struct_ok forallb]; [reflexivity|].
  rewrite (atom_ok_eq Hr Ha). cbn [bind]. destruct (holdsb b a); cbn [andb]; auto.
Qed.
Lemma forallb_holds b l : forallb (holdsb b) l = true <-> Forall (holds b) l.
Proof. rewrite forallb_forall, Forall_forall. unfold holdsb, holds. setoid_rewrite Z.eqb_eq. tauto. Qed.

