(** * BaseFacts: lemmas about Base and Spec (no model, no property here). *)
From Verif Require Import Base Spec.
Open Scope Z_scope.

(** ** result monad *)
Lemma bind_ok {A B} (m : R A) (k : A -> R B) (b : B) :
  bind m k = Ok b -> exists a, m = Ok a /\ k a = Ok b.
Proof. destruct m; simpl; intros H; try discriminate; eauto. Qed.

Lemma foldM_app {S A} (f : S -> A -> R S) l1 l2 s :
  foldM f (l1 ++ l2) s = let* s' := foldM f l1 s in foldM f l2 s'.
Proof.
  revert s; induction l1 as [|x l1 IH]; intros s; simpl; [reflexivity|].
  destruct (f s x); simpl; auto.
Qed.

(** total correctness of a loop *)
Lemma foldM_inv {S A} (f : S -> A -> R S) (P : list A -> S -> Prop) (l : list A) (s0 : S) :
  P [] s0 ->
  (forall done x rest s, l = done ++ x :: rest -> P done s ->
     exists s', f s x = Ok s' /\ P (done ++ [x]) s') ->
  exists s', foldM f l s0 = Ok s' /\ P l s'.
Proof.
  intros H0 Hstep.
  assert (G : forall rest done s, l = done ++ rest -> P done s ->
            exists s', foldM f rest s = Ok s' /\ P l s').
  { induction rest as [|x rest IH]; intros done s Hl HP.
    - exists s; split; [reflexivity|]. rewrite app_nil_r in Hl. subst; auto.
    - destruct (Hstep done x rest s Hl HP) as (s' & Hf & HP').
      simpl. rewrite Hf; simpl.
      apply (IH (done ++ [x])); auto. rewrite <- app_assoc; auto. }
  apply (G l [] s0); auto.
Qed.

(** partial correctness: invariant with error propagation *)
Lemma foldM_inv_partial {S A} (f : S -> A -> R S) (P : S -> Prop) (l : list A) (s0 s1 : S) :
  P s0 -> (forall s x s', In x l -> P s -> f s x = Ok s' -> P s') ->
  foldM f l s0 = Ok s1 -> P s1.
Proof.
  revert s0; induction l as [|x l IH]; simpl; intros s0 H0 Hs Hf.
  - inversion Hf; subst; auto.
  - destruct (f s0 x) as [s'|e| |] eqn:E; simpl in Hf; try discriminate.
    apply (IH s'); auto.
    + apply (Hs s0 x s'); auto.
    + intros s y s'' Hy. apply Hs; auto.
Qed.

Lemma foldM_pure {S A} (f : S -> A -> R S) (g : S -> A -> S) (I : S -> Prop) l s :
  I s -> (forall s x, In x l -> I s -> f s x = Ok (g s x) /\ I (g s x)) ->
  foldM f l s = Ok (fold_left g l s) /\ I (fold_left g l s).
Proof.
  revert s; induction l as [|x l IH]; simpl; intros s Hs H; [auto|].
  destruct (H s x (or_introl eq_refl) Hs) as [E Hi]. rewrite E; simpl.
  apply IH; auto.
Qed.

Lemma foldM_ext {S A} (f g : S -> A -> R S) l s :
  (forall s x, In x l -> f s x = g s x) -> foldM f l s = foldM g l s.
Proof.
  revert s; induction l as [|x l IH]; simpl; intros s H; [auto|].
  rewrite H by auto. destruct (g s x); simpl; auto.
Qed.

Lemma countM_ok {A} (f : A -> R bool) (g : A -> bool) l :
  (forall x, In x l -> f x = Ok (g x)) -> countM f l = Ok (count g l).
Proof.
  induction l as [|x l IH]; simpl; intros H; [reflexivity|].
  rewrite H by auto; simpl. rewrite IH by auto; simpl.
  unfold count; simpl. destruct (g x); reflexivity.
Qed.

Lemma count_pos_existsb {A} (g : A -> bool) l : (0 <? count g l)%nat = existsb g l.
Proof.
  unfold count. induction l as [|x l IH]; simpl; [reflexivity|].
  destruct (g x); simpl; auto.
Qed.

Lemma anyM_ok {A} (f : A -> R bool) (g : A -> bool) l :
  (forall x, In x l -> f x = Ok (g x)) -> anyM f l = Ok (existsb g l).
Proof.
  intros H. unfold anyM. rewrite (countM_ok H). simpl. now rewrite count_pos_existsb.
Qed.

Lemma findM_ok {A} (f : A -> R bool) (g : A -> bool) l :
  (forall x, In x l -> f x = Ok (g x)) -> findM f l = Ok (existsb g l).
Proof.
  induction l as [|x l IH]; simpl; intros H; [reflexivity|].
  rewrite H by auto; simpl. destruct (g x); simpl; auto.
Qed.

(** ** one-dimensional vectors *)
Lemma length_upd_nth {A} (l : list A) n v : length (upd_nth l n v) = length l.
Proof. revert n; induction l as [|h l IH]; destruct n; simpl; auto. Qed.

Lemma nth_upd_nth_eq {A} (l : list A) n v d : (n < length l)%nat -> nth n (upd_nth l n v) d = v.
Proof. revert n; induction l as [|h l IH]; destruct n; simpl; intros; try lia; auto. apply IH; lia. Qed.

Lemma nth_upd_nth_neq {A} (l : list A) n m v d : n <> m -> nth m (upd_nth l n v) d = nth m l d.
Proof.
  revert n m; induction l as [|h l IH]; destruct n, m; simpl; intros; auto; try lia.
Qed.

Lemma nth_error_upd_nth_eq {A} (l : list A) n v : (n < length l)%nat -> nth_error (upd_nth l n v) n = Some v.
Proof. revert n; induction l as [|h l IH]; destruct n; simpl; intros; try lia; auto. apply IH; lia. Qed.

Lemma nth_error_upd_nth_neq {A} (l : list A) n m v : n <> m -> nth_error (upd_nth l n v) m = nth_error l m.
Proof.
  revert n m; induction l as [|h l IH]; destruct n, m; simpl; intros; auto; try lia.
Qed.

Lemma vget_ok {A} (l : list A) i d : (i < length l)%nat -> vget l i = Ok (nth i l d).
Proof.
  intros H. unfold vget. destruct (nth_error l i) eqn:E.
  - now rewrite (nth_error_nth _ _ d E).
  - apply nth_error_None in E; lia.
Qed.

Lemma vset_ok {A} (l : list A) i v : (i < length l)%nat -> vset l i v = Ok (upd_nth l i v).
Proof. intros H. unfold vset. destruct (Nat.ltb_spec i (length l)); auto; lia. Qed.

(** ** positions *)
Lemma posb_spec p q : reflect (p = q) (posb p q).
Proof.
  unfold posb; destruct p as [a b], q as [c d]; simpl.
  destruct (Nat.eqb_spec a c), (Nat.eqb_spec b d); simpl; constructor; congruence.
Qed.
Lemma posb_refl p : posb p p = true.
Proof. destruct (posb_spec p p); congruence. Qed.

Lemma pos_eq_dec (p q : pos) : {p = q} + {p <> q}.
Proof. decide equality; apply Nat.eq_dec. Qed.

Lemma in_rng x a b : In x (rng a b) <-> (a <= x < b)%nat.
Proof. unfold rng. rewrite in_seq. lia. Qed.

Lemma NoDup_rng a b : NoDup (rng a b).
Proof. apply seq_NoDup. Qed.

Lemma NoDup_list_prod {A B} (l : list A) (l' : list B) :
  NoDup l -> NoDup l' -> NoDup (list_prod l l').
Proof.
  intros H H'. induction H as [|x l Hx Hl IH]; simpl; [constructor|].
  assert (Hm : NoDup (map (fun y => (x, y)) l')).
  { clear -H'. induction H' as [|y l' Hy Hl' IHl]; simpl; constructor; auto.
    rewrite in_map_iff. intros (z & E & Hz); inversion E; subst; auto. }
  revert Hm. generalize (map (fun y => (x, y)) l') (fun p => @in_map_iff _ _ (fun y => (x, y)) l' p).
  intros m Hin Hm. induction Hm as [|y m Hy Hm' IHm]; simpl; auto.
  - constructor.
    + rewrite in_app_iff. intros [?|Hp]; [auto|].
      destruct (Hin y) as [Hin1 _]. destruct (Hin1 (or_introl eq_refl)) as (b & <- & _).
      apply in_prod_iff in Hp as [? _]; auto.
    + (* the generalized [m] shrinks: redo with weaker statement *)
      clear IHm.
      assert (G : forall m2, (forall p, In p m2 -> In p (y :: m)) -> NoDup m2 -> NoDup (m2 ++ list_prod l l')).
      { induction m2 as [|z m2 IH2]; simpl; intros Hsub Hnd; auto.
        inversion Hnd; subst. constructor.
        - rewrite in_app_iff. intros [?|Hp]; [auto|].
          destruct (Hin z) as [Hin1 _]. destruct (Hin1 (Hsub z (or_introl eq_refl))) as (b & <- & _).
          apply in_prod_iff in Hp as [? _]; auto.
        - apply IH2; auto. intros p Hp. apply Hsub; auto. }
      apply G; auto. intros p Hp; right; auto.
Qed.

Lemma in_positions row column p : In p (positions row column) <-> inb row column p.
Proof.
  destruct p as [i j]. unfold positions, inb; simpl. rewrite in_prod_iff, !in_seq. lia.
Qed.
Lemma NoDup_positions row column : NoDup (positions row column).
Proof. apply NoDup_list_prod; apply seq_NoDup. Qed.
Lemma length_positions row column : length (positions row column) = (row * column)%nat.
Proof. unfold positions. now rewrite prod_length, !seq_length. Qed.

Lemma in_grid row column p : In p (grid row column) <-> inb row column p.
Proof. apply in_positions. Qed.

Lemma in_zone row column i j p :
  In p (zone row column i j) <-> inb row column p /\ near (i, j) p.
Proof.
  destruct p as [m n]. unfold zone, inb, near; cbn [fst snd].
  rewrite in_prod_iff, !in_rng. lia.
Qed.
Lemma NoDup_zone row column i j : NoDup (zone row column i j).
Proof. apply NoDup_list_prod; apply NoDup_rng. Qed.

Lemma nearb_spec p q : reflect (near p q) (nearb p q).
Proof.
  unfold near, nearb.
  destruct ((fst p <=? fst q + 1) && (fst q <=? fst p + 1) && (snd p <=? snd q + 1) && (snd q <=? snd p + 1))%nat eqn:E;
    constructor; lia.
Qed.
Lemma adjb_spec p q : reflect (adj p q) (adjb p q).
Proof.
  unfold adj, adjb. destruct (posb_spec p q), (nearb_spec p q); simpl; constructor; tauto.
Qed.
Lemma near_sym p q : near p q -> near q p.
Proof. unfold near; lia. Qed.
Lemma near_refl p : near p p.
Proof. unfold near; lia. Qed.
Lemma adj_sym p q : adj p q -> adj q p.
Proof. intros [H1 H2]; split; [congruence|now apply near_sym]. Qed.
Lemma nearb_sym p q : nearb p q = nearb q p.
Proof. destruct (nearb_spec p q), (nearb_spec q p); auto; exfalso; eauto using near_sym. Qed.
Lemma posb_sym p q : posb p q = posb q p.
Proof. destruct (posb_spec p q), (posb_spec q p); congruence. Qed.
Lemma adjb_sym p q : adjb p q = adjb q p.
Proof. unfold adjb. now rewrite posb_sym, nearb_sym. Qed.

(** ** boards *)
Lemma rect_row {A} row column (b : list (list A)) i :
  rect row column b -> (i < row)%nat -> length (nth i b []) = column.
Proof.
  intros [Hl Hf] Hi. rewrite Forall_forall in Hf. apply Hf. apply nth_In; lia.
Qed.

Lemma rect_row_error {A} row column (b : list (list A)) i :
  rect row column b -> (i < row)%nat -> nth_error b i = Some (nth i b []).
Proof.
  intros [Hl Hf] Hi. apply nth_error_nth'. lia.
Qed.

(** generic cell content, for boards of any element type *)
Definition gcell {A} (d : A) (b : list (list A)) (p : pos) : A := nth (snd p) (nth (fst p) b []) d.

Lemma get_gok {A} (d : A) row column (b : list (list A)) i j :
  rect row column b -> inb row column (i, j) -> get b i j = Ok (gcell d b (i, j)).
Proof.
  intros Hr [Hi Hj]; simpl in *. unfold get.
  rewrite (rect_row_error Hr Hi).
  pose proof (rect_row Hr Hi) as Hlen.
  rewrite (@nth_error_nth' _ _ _ d) by lia. reflexivity.
Qed.
Lemma get_ok row column (b : board) i j :
  rect row column b -> inb row column (i, j) -> get b i j = Ok (cell b (i, j)).
Proof. apply (@get_gok _ 0). Qed.

(** pure update *)
Definition upd {A} (b : list (list A)) (p : pos) (v : A) : list (list A) :=
  upd_nth b (fst p) (upd_nth (nth (fst p) b []) (snd p) v).

Lemma set_ok {A} row column (b : list (list A)) i j v :
  rect row column b -> inb row column (i, j) -> set b i j v = Ok (upd b (i, j) v).
Proof.
  intros Hr [Hi Hj]; simpl in *. unfold set. rewrite (rect_row_error Hr Hi).
  rewrite (rect_row Hr Hi). destruct (Nat.ltb_spec j column); [reflexivity|lia].
Qed.

Lemma Forall_upd_nth {A} (P : A -> Prop) l n v : Forall P l -> P v -> Forall P (upd_nth l n v).
Proof.
  intros H Hv; revert n; induction H; destruct n; simpl; constructor; auto.
Qed.

Lemma rect_upd {A} row column (b : list (list A)) p v :
  rect row column b -> rect row column (upd b p v).
Proof.
  intros [Hl Hf]. unfold upd. destruct (Nat.lt_ge_cases (fst p) (length b)) as [Hi|Hi].
  - split; [now rewrite length_upd_nth|].
    apply Forall_upd_nth; auto. rewrite length_upd_nth.
    rewrite Forall_forall in Hf. apply Hf, nth_In; auto.
  - assert (E : forall (x : list A), upd_nth b (fst p) x = b).
    { intros x. clear -Hi. revert Hi. generalize (fst p). induction b; intros [|n]; simpl; intros; auto; try lia.
      rewrite IHb; auto; lia. }
    rewrite E. split; auto.
Qed.

Lemma gcell_upd_eq {A} (d : A) row column (b : list (list A)) p v :
  rect row column b -> inb row column p -> gcell d (upd b p v) p = v.
Proof.
  intros Hr [Hi Hj]. unfold gcell, upd. pose proof (rect_row Hr Hi) as Hlen. destruct Hr as [Hl _].
  rewrite nth_upd_nth_eq by lia. apply nth_upd_nth_eq; lia.
Qed.
Lemma gcell_upd_neq {A} (d : A) (b : list (list A)) p q v :
  p <> q -> gcell d (upd b p v) q = gcell d b q.
Proof.
  intros H. unfold gcell, upd. destruct p as [i j], q as [k l]; simpl in *.
  destruct (Nat.eq_dec i k) as [->|Hik].
  - destruct (Nat.lt_ge_cases k (length b)).
    + rewrite nth_upd_nth_eq by auto. apply nth_upd_nth_neq. congruence.
    + assert (E : forall x, nth k (upd_nth b k x) [] = nth k b []).
      { intros x. rewrite !nth_overflow; auto. now rewrite length_upd_nth. }
      now rewrite E.
  - rewrite nth_upd_nth_neq by auto. reflexivity.
Qed.
Lemma cell_upd_eq row column (b : board) p v :
  rect row column b -> inb row column p -> cell (upd b p v) p = v.
Proof. apply (@gcell_upd_eq _ 0). Qed.
Lemma cell_upd_neq (b : board) p q v : p <> q -> cell (upd b p v) q = cell b q.
Proof. apply (@gcell_upd_neq _ 0). Qed.
Lemma gcell_upd {A} (d : A) row column (b : list (list A)) p q v :
  rect row column b -> inb row column p ->
  gcell d (upd b p v) q = if posb p q then v else gcell d b q.
Proof.
  intros Hr Hp. destruct (posb_spec p q) as [<-|Hn].
  - eapply gcell_upd_eq; eauto.
  - now apply gcell_upd_neq.
Qed.
Lemma cell_upd row column (b : board) p q v :
  rect row column b -> inb row column p -> cell (upd b p v) q = if posb p q then v else cell b q.
Proof. apply (@gcell_upd _ 0). Qed.

Lemma rect_mkboard {A} row column (v : A) : rect row column (mkboard row column v).
Proof.
  unfold mkboard. split; [apply repeat_length|].
  apply Forall_forall. intros r Hr. apply repeat_spec in Hr. subst. apply repeat_length.
Qed.
Lemma nth_repeat_lt {A} (v d : A) n i : (i < n)%nat -> nth i (repeat v n) d = v.
Proof. revert i; induction n; destruct i; simpl; intros; auto; try lia. apply IHn; lia. Qed.
Lemma gcell_mkboard {A} (d : A) row column (v : A) p :
  inb row column p -> gcell d (mkboard row column v) p = v.
Proof.
  intros [Hi Hj]. unfold gcell, mkboard. rewrite nth_repeat_lt by auto. now apply nth_repeat_lt.
Qed.
Lemma cell_mkboard row column v p : inb row column p -> cell (mkboard row column v) p = v.
Proof. apply (@gcell_mkboard _ 0). Qed.

Lemma rect_ext {A} (d : A) row column (b1 b2 : list (list A)) :
  rect row column b1 -> rect row column b2 ->
  (forall p, inb row column p -> gcell d b1 p = gcell d b2 p) -> b1 = b2.
Proof.
  intros [H1 F1] [H2 F2] H.
  apply nth_ext with (d := []) (d' := []); [congruence|].
  intros i Hi. apply nth_ext with (d := d) (d' := d).
  - rewrite Forall_forall in F1, F2. rewrite F1, F2 by (apply nth_In; lia). reflexivity.
  - intros j Hj. rewrite Forall_forall in F1. rewrite F1 in Hj by (apply nth_In; lia).
    apply (H (i, j)). unfold inb; simpl; lia.
Qed.
Lemma board_ext row column (b1 b2 : board) :
  rect row column b1 -> rect row column b2 ->
  (forall p, inb row column p -> cell b1 p = cell b2 p) -> b1 = b2.
Proof. apply (@rect_ext _ 0). Qed.

Lemma ncolsR_ok {A} row column (b : list (list A)) :
  rect row column b -> (0 < row)%nat -> ncolsR b = Ok column.
Proof.
  intros [Hl Hf] Hr. destruct b as [|r b]; simpl in *; [lia|].
  inversion Hf; subst; auto.
Qed.
Lemma nrows_ok {A} row column (b : list (list A)) : rect row column b -> nrows b = row.
Proof. now intros [H _]. Qed.

(** ** counting *)
Lemma count_nil {A} (f : A -> bool) : count f [] = 0%nat. Proof. reflexivity. Qed.
Lemma count_cons {A} (f : A -> bool) x l :
  count f (x :: l) = ((if f x then 1 else 0) + count f l)%nat.
Proof. unfold count; simpl; destruct (f x); reflexivity. Qed.
Lemma count_app {A} (f : A -> bool) l1 l2 : count f (l1 ++ l2) = (count f l1 + count f l2)%nat.
Proof. unfold count. now rewrite filter_app, app_length. Qed.
Lemma count_ext {A} (f g : A -> bool) l : (forall x, In x l -> f x = g x) -> count f l = count g l.
Proof.
  induction l as [|x l IH]; intros H; [reflexivity|].
  rewrite !count_cons, H, IH; auto using in_eq. intros; apply H; right; auto.
Qed.
Lemma count_le {A} (f : A -> bool) l : (count f l <= length l)%nat.
Proof. induction l as [|x l IH]; [reflexivity|]. rewrite count_cons; simpl. destruct (f x); lia. Qed.
Lemma count_zero {A} (f : A -> bool) l : (forall x, In x l -> f x = false) -> count f l = 0%nat.
Proof.
  induction l as [|x l IH]; intros H; [reflexivity|].
  rewrite count_cons, H, IH; auto using in_eq. intros; apply H; right; auto.
Qed.
Lemma count_zero_inv {A} (f : A -> bool) l : count f l = 0%nat -> forall x, In x l -> f x = false.
Proof.
  induction l as [|y l IH]; intros H x Hx; [inversion Hx|].
  rewrite count_cons in H. destruct Hx as [->|Hx].
  - destruct (f x); simpl in H; auto; lia.
  - apply IH; auto. lia.
Qed.
Lemma count_split {A} (f g : A -> bool) l :
  count f l = (count (fun x => f x && g x) l + count (fun x => f x && negb (g x)) l)%nat.
Proof.
  induction l as [|x l IH]; [reflexivity|]. rewrite !count_cons, IH.
  destruct (f x), (g x); simpl; lia.
Qed.
Lemma count_mono {A} (f g : A -> bool) l :
  (forall x, In x l -> f x = true -> g x = true) -> (count f l <= count g l)%nat.
Proof.
  induction l as [|x l IH]; intros H; [reflexivity|]. rewrite !count_cons.
  assert (count f l <= count g l)%nat by (apply IH; intros; apply H; auto; right; auto).
  specialize (H x (or_introl eq_refl)). destruct (f x); [rewrite H by auto|destruct (g x)]; lia.
Qed.
Lemma count_permutation {A} (f : A -> bool) l l' : Permutation l l' -> count f l = count f l'.
Proof.
  induction 1; rewrite ?count_cons in *; try lia; auto.
Qed.
Lemma count_map {A B} (h : A -> B) (f : B -> bool) l : count f (map h l) = count (fun x => f (h x)) l.
Proof. induction l as [|x l IH]; [reflexivity|]. simpl. now rewrite !count_cons, IH. Qed.

Lemma count_sub {A} (f g : A -> bool) (l l' : list A) :
  NoDup l -> NoDup l' ->
  (forall x, In x l -> f x = true -> In x l' /\ g x = true) ->
  (count f l <= count g l')%nat.
Proof.
  intros Hl Hl' H. unfold count. apply NoDup_incl_length; [now apply NoDup_filter|].
  intros x Hx. apply filter_In in Hx as [Hx Hf]. apply filter_In. auto.
Qed.
Lemma count_same {A} (f g : A -> bool) (l l' : list A) :
  NoDup l -> NoDup l' ->
  (forall x, (In x l /\ f x = true) <-> (In x l' /\ g x = true)) ->
  count f l = count g l'.
Proof.
  intros Hl Hl' H. apply Nat.le_antisymm; apply count_sub; auto; intros x Hx Hf; apply H; auto.
Qed.

(** changing one element *)
Lemma count_point {A} (eqd : forall x y : A, {x = y} + {x <> y}) (f g : A -> bool) l p :
  NoDup l -> In p l -> (forall x, x <> p -> f x = g x) ->
  (count f l + (if g p then 1 else 0) = count g l + (if f p then 1 else 0))%nat.
Proof.
  intros Hnd Hp H. apply in_split in Hp as (l1 & l2 & ->).
  rewrite !count_app, !count_cons.
  apply NoDup_remove_2 in Hnd. rewrite in_app_iff in Hnd.
  rewrite (@count_ext _ f g l1), (@count_ext _ f g l2); [lia| |]; intros x Hx; apply H; intros ->; tauto.
Qed.

Lemma adj_count_zone row column f i j :
  adj_count row column f (i, j) =
  count (fun q => negb (posb (i, j) q) && f q) (zone row column i j).
Proof.
  unfold adj_count. apply count_same; [apply NoDup_positions|apply NoDup_zone|].
  intros q. rewrite in_positions, in_zone. unfold adjb.
  destruct (posb_spec (i, j) q), (nearb_spec (i, j) q); simpl; intuition; try discriminate.
Qed.
Lemma adj_count_le row column f p : (adj_count row column f p <= 8)%nat.
Proof.
  destruct p as [i j]. rewrite adj_count_zone.
  assert (L : (length (zone row column i j) <= 9)%nat).
  { unfold zone, rng. rewrite prod_length, !seq_length.
    assert (H : forall a b, (Nat.min a (b + 2) - (Nat.max 1 b - 1) <= 3)%nat) by lia.
    pose proof (H row i). pose proof (H column j). nia. }
  destruct (in_dec pos_eq_dec (i, j) (zone row column i j)) as [Hin|Hout].
  - apply in_split in Hin as (l1 & l2 & E). rewrite E in *.
    rewrite count_app, count_cons, posb_refl. simpl.
    rewrite app_length in L; simpl in L.
    pose proof (count_le (fun q => negb (posb (i, j) q) && f q) l1).
    pose proof (count_le (fun q => negb (posb (i, j) q) && f q) l2). lia.
  - (* (i,j) outside the board: at most 3 near cells per axis, some axis misses the middle *)
    assert (L8 : (length (zone row column i j) <= 6)%nat).
    { unfold zone, rng. rewrite prod_length, !seq_length.
      rewrite in_zone in Hout. unfold inb in Hout; simpl in Hout.
      assert (H : forall a b, (Nat.min a (b + 2) - (Nat.max 1 b - 1) <= 3)%nat) by lia.
      assert (H2 : forall a b, (a <= b)%nat -> (Nat.min a (b + 2) - (Nat.max 1 b - 1) <= 1)%nat) by lia.
      pose proof (H row i). pose proof (H column j).
      destruct (Nat.lt_ge_cases i row); [destruct (Nat.lt_ge_cases j column)|].
      - exfalso. apply Hout. split; [lia|]. apply near_refl.
      - pose proof (H2 column j). nia.
      - pose proof (H2 row i). nia. }
    pose proof (count_le (fun q => negb (posb (i, j) q) && f q) (zone row column i j)). lia.
Qed.

(** ** connectivity *)
Lemma connected_l (P : pos -> Prop) p q : connected P p q -> P p.
Proof. induction 1; auto. Qed.
Lemma connected_r (P : pos -> Prop) p q : connected P p q -> P q.
Proof. induction 1; auto. Qed.
Lemma connected_trans (P : pos -> Prop) p q r : connected P p q -> connected P q r -> connected P p r.
Proof.
  intros Hpq Hqr. revert p Hpq. induction Hqr as [p' Hp'|p' q r Hpq IH Hn Hr]; intros p0 H0; auto.
  apply (@conn_step P p0 q r); auto.
Qed.
Lemma connected_one (P : pos -> Prop) p q : P p -> P q -> near p q -> connected P p q.
Proof. intros Hp Hq Hn. apply (@conn_step P p p q); auto. constructor; auto. Qed.
Lemma connected_sym (P : pos -> Prop) p q : connected P p q -> connected P q p.
Proof.
  induction 1 as [p Hp|p q r Hpq IH Hn Hr]; [now constructor|].
  eapply connected_trans; [|exact IH]. apply connected_one; auto using near_sym.
  now apply connected_r in Hpq.
Qed.
Lemma connected_mono (P Q : pos -> Prop) p q :
  (forall x, P x -> Q x) -> connected P p q -> connected Q p q.
Proof.
  intros H; induction 1 as [p Hp|p q r Hpq IH Hn Hr]; [constructor; auto|].
  apply (@conn_step Q p q r); auto.
Qed.

(** The number of components is unique. *)
Lemma components_le (P : pos -> Prop) n m : components P n -> components P m -> (n <= m)%nat.
Proof.
  intros (r1 & L1 & N1 & F1 & C1 & U1) (r2 & L2 & N2 & F2 & C2 & U2). subst.
  (* map each representative of r1 to its representative in r2; injective *)
  assert (G : forall l, incl l r1 -> NoDup l ->
            exists l', length l' = length l /\ incl l' r2 /\ NoDup l' /\
              (forall y, In y l' -> exists x, In x l /\ connected P y x)).
  { induction l as [|x l IH]; intros Hi Hn.
    - exists []. repeat split; simpl; auto; try constructor; intros ? [].
    - inversion Hn; subst. destruct IH as (l' & E & I' & N' & K'); auto.
      { intros y Hy; apply Hi; right; auto. }
      assert (Hx : In x r1) by (apply Hi; left; auto).
      rewrite Forall_forall in F1. destruct (C2 x (F1 x Hx)) as (y & Hy & Hc).
      exists (y :: l'). split; [simpl; congruence|]. split; [|split].
      + intros z [<-|Hz]; auto.
      + constructor; auto. intros Hin. destruct (K' y Hin) as (x' & Hx' & Hc').
        assert (x' = x). { apply U1; auto. apply Hi; right; auto.
          eapply connected_trans; [apply connected_sym, Hc'|exact Hc]. }
        subst; auto.
      + intros z [<-|Hz]; [exists x; split; auto; left; auto|].
        destruct (K' z Hz) as (x' & Hx' & Hc'). exists x'; split; auto; right; auto. }
  destruct (G r1 (incl_refl _) N1) as (l' & E & I' & N' & _).
  rewrite <- E. now apply NoDup_incl_length.
Qed.
Lemma components_unique (P : pos -> Prop) n m : components P n -> components P m -> n = m.
Proof. intros; apply Nat.le_antisymm; eauto using components_le. Qed.

Lemma NoDup_map_in {A B} (f : A -> B) l :
  (forall x y, In x l -> In y l -> f x = f y -> x = y) -> NoDup l -> NoDup (map f l).
Proof.
  intros Hinj Hnd. induction Hnd as [|x l Hx Hnd IH]; simpl; constructor.
  - rewrite in_map_iff. intros (y & E & Hy). apply Hx.
    rewrite (Hinj x y); auto using in_eq. right; auto.
  - apply IH. intros y z Hy Hz. apply Hinj; right; auto.
Qed.

Lemma nth_map_lt {A B} (f : A -> B) l i d d' : (i < length l)%nat -> nth i (map f l) d = f (nth i l d').
Proof.
  revert i; induction l as [|x l IH]; intros [|i] H; simpl in *; try lia; auto. apply IH; lia.
Qed.
Lemma nth_map_seq {B} (f : nat -> B) n i d : (i < n)%nat -> nth i (map f (seq 0 n)) d = f i.
Proof.
  intros H. rewrite (@nth_map_lt _ _ f _ i d 0%nat) by (now rewrite seq_length).
  now rewrite seq_nth.
Qed.

Lemma firstn_S_nth {A} (d : A) l m : (m < length l)%nat -> firstn (S m) l = firstn m l ++ [nth m l d].
Proof.
  revert m; induction l as [|h t IH]; intros [|m] Hm; simpl in *; try lia; auto.
  f_equal. apply IH. lia.
Qed.

Lemma firstn_In_sub {A} n (l : list A) x : In x (firstn n l) -> In x l.
Proof. revert n; induction l as [|h t IH]; intros [|n]; simpl; try tauto. intros [?|?]; eauto. Qed.
Lemma skipn_In_sub {A} n (l : list A) x : In x (skipn n l) -> In x l.
Proof. revert n; induction l as [|h t IH]; intros [|n]; simpl; try tauto. eauto. Qed.

Lemma skipn_nth_cons {A} (d : A) n l : (n < length l)%nat -> skipn n l = nth n l d :: skipn (S n) l.
Proof.
  revert n; induction l as [|h t IH]; intros [|n] H; simpl in *; try lia; auto. apply IH; lia.
Qed.

Lemma posb_neq p q : p <> q -> posb p q = false.
Proof. intros H. destruct (posb_spec p q); congruence. Qed.

Lemma inb_dec row column p : {inb row column p} + {~ inb row column p}.
Proof.
  destruct (lt_dec (fst p) row); [|right; intros [? ?]; contradiction].
  destruct (lt_dec (snd p) column); [left; split; auto|right; intros [? ?]; contradiction].
Qed.
Lemma cell_out row column (b : board) p : rect row column b -> ~ inb row column p -> cell b p = 0.
Proof.
  intros Hr Hn. unfold cell. destruct (Nat.lt_ge_cases (fst p) row) as [Hi|Hi].
  - apply nth_overflow. rewrite (rect_row Hr Hi). destruct (Nat.lt_ge_cases (snd p) column); auto.
    exfalso. apply Hn. split; auto.
  - rewrite (@nth_overflow _ b) by (destruct Hr; lia). destruct (snd p); reflexivity.
Qed.
Lemma NoDup_app_disj {A} (l1 l2 : list A) :
  NoDup l1 -> NoDup l2 -> (forall x, In x l1 -> In x l2 -> False) -> NoDup (l1 ++ l2).
Proof.
  intros H1 H2 Hd. induction H1 as [|x l1 Hx H1 IH]; simpl; auto. constructor.
  - rewrite in_app_iff. intros [?|?]; [auto|]. apply (Hd x); auto using in_eq.
  - apply IH. intros y Hy. apply Hd. right; auto.
Qed.
