(** * PossFloatProofs: [posterior_f] follows [posterior] with a small relative error (lemmas for C33). *)
From Coq Require Import ZArith Reals Lia Lra Bool List.
From Flocq Require Import Core IEEE754.BinarySingleNaN IEEE754.Binary IEEE754.Bits.
From Verif Require Import Base Spec BaseFacts LayMine Matrix Solve Utils UtilsProofs SolverSpec TableProofs FloatTime FloatQuot FloatTrace BigNum FloatNear BigNumProofs BigBinom
  Possibility PossProofs PossFloat.
Import ListNotations.
Open Scope nat_scope.
Local Notation val := (B2R 53 1024).

(** ** following a computation *)
Definition simR {A B} (P : A -> B -> Prop) (a : R A) (b : R B) : Prop := forall x, a = Ok x -> exists y, b = Ok y /\ P x y.
Lemma sim_ok {A B} (P : A -> B -> Prop) x y : P x y -> simR P (Ok x) (Ok y).
Proof. intros H z E. injection E as <-. eauto. Qed.
Lemma sim_bind {A B C D} (P : A -> B -> Prop) (Q : C -> D -> Prop) a b (f : A -> R C) (h : B -> R D) :
  simR P a b -> (forall x y, a = Ok x -> P x y -> simR Q (f x) (h y)) -> simR Q (bind a f) (bind b h).
Proof. intros H K z E. destruct a as [x| | |] eqn:Ea; cbn [bind] in E; try discriminate E. destruct (H x eq_refl) as (y & -> & Py). cbn [bind]. exact (K x y eq_refl Py z E). Qed.
Lemma sim_same {A C D} (Q : C -> D -> Prop) (a : R A) (f : A -> R C) (h : A -> R D) :
  (forall x, a = Ok x -> simR Q (f x) (h x)) -> simR Q (bind a f) (bind a h).
Proof. intros K z E. destruct a as [x| | |] eqn:Ea; cbn [bind] in E |- *; try discriminate E. exact (K x eq_refl z E). Qed.
Lemma sim_mono {A B} (P Q : A -> B -> Prop) a b : (forall x y, P x y -> Q x y) -> simR P a b -> simR Q a b.
Proof. intros H K x E. destruct (K x E) as (y & -> & Py). eauto. Qed.
(** the invariant may depend on the number of steps *)
Lemma sim_foldM {T T' A A'} (Inv : nat -> T -> T' -> Prop) (Q : A -> A' -> Prop) (F : T -> A -> R T) (F' : T' -> A' -> R T') K :
  (forall k s s' a a', k < K -> Inv k s s' -> Q a a' -> simR (Inv (S k)) (F s a) (F' s' a')) ->
  forall l l', Forall2 Q l l' -> forall k s s', k + length l <= K -> Inv k s s' -> simR (Inv (k + length l)) (foldM F l s) (foldM F' l' s').
Proof.
  intros H l l' FF. induction FF as [|a a' l l' Ha FF IH]; intros k s s' Hk HI; cbn [foldM length] in *.
  - apply sim_ok. now rewrite Nat.add_0_r.
  - eapply sim_bind; [apply (H k s s' a a'); auto; lia|]. intros x y _ Hxy. replace (k + S (length l)) with (S k + length l) by lia. apply IH; auto; lia.
Qed.
Lemma sim_mapM {A A' B B'} (Q : A -> A' -> Prop) (P : B -> B' -> Prop) (F : A -> R B) (F' : A' -> R B') :
  (forall a a', Q a a' -> simR P (F a) (F' a')) -> forall l l', Forall2 Q l l' -> simR (Forall2 P) (mapM F l) (mapM F' l').
Proof.
  intros H l l' FF. induction FF as [|a a' l l' Ha FF IH]; cbn [mapM].
  - apply sim_ok. constructor.
  - eapply sim_bind; [apply H, Ha|]. intros x y _ Hxy. eapply sim_bind; [apply IH|]. intros xs ys _ Hs. apply sim_ok. now constructor.
Qed.
Lemma Forall2_same {A} (P : A -> Prop) l : Forall P l -> Forall2 (fun x y => x = y /\ P x) l l.
Proof. induction 1; constructor; auto. Qed.
Lemma sim_vget {A B} (P : A -> B -> Prop) l l' i : Forall2 P l l' -> simR P (vget l i) (vget l' i).
Proof.
  intros F. revert i. induction F as [|a b l l' H F IH]; intros [|i] x E; unfold vget in *; cbn [nth_error] in *; try discriminate E.
  - injection E as <-. eauto.
  - apply IH, E.
Qed.
Lemma Forall2_nth {A B} (P : A -> B -> Prop) l l' d d' : length l = length l' -> (forall i, i < length l -> P (nth i l d) (nth i l' d')) -> Forall2 P l l'.
Proof.
  revert l'. induction l as [|a l IH]; intros [|b l'] L H; try discriminate L; constructor.
  - apply (H 0). cbn. lia.
  - apply IH; [cbn in L; lia|]. intros i Hi. apply (H (S i)). cbn. lia.
Qed.
Lemma Forall2_combine {A B C D} (P : A -> B -> Prop) (Q : C -> D -> Prop) l1 l2 m1 m2 : Forall2 P l1 l2 -> Forall2 Q m1 m2 ->
  Forall2 (fun x y => P (fst x) (fst y) /\ Q (snd x) (snd y)) (combine l1 m1) (combine l2 m2).
Proof. intros F. revert m1 m2. induction F as [|a b l1 l2 H F IH]; intros m1 m2 G; cbn [combine]; [constructor|]. destruct G as [|c d m1 m2 H' G]; constructor; auto. Qed.

(** ** representation of the exact numbers *)
Definition rep (M v : nat) (x : big) : Prop := holds M (INR v) x.
Lemma rep_mono M M' v x : M <= M' -> rep M v x -> rep M' v x. Proof. intros. eapply holds_mono; eauto. Qed.
Lemma pow2_DD e v : e <= 976 -> v <= 2 ^ e -> (INR v <= p10 DD)%R.
Proof.
  intros He Hv. apply Rle_trans with (INR (2 ^ e)); [now apply le_INR|]. rewrite pow_INR. replace (INR 2) with 2%R by reflexivity.
  apply Rle_trans with (2 ^ 976)%R; [apply Rle_pow; [lra|auto]|]. rewrite pow_IZR, p10_Z by (unfold DD; lia). apply IZR_le. vm_compute. discriminate.
Qed.
Lemma zero_rep M b : (0 <= b <= EE)%Z -> rep M 0 (Big f_zero b). Proof. intros H. eapply holds_mono; [|apply zero_holds, H]. lia. Qed.
Lemma mul_usize_rep M v x k e : rep M v x -> roomy M -> (Z.of_nat k < 2 ^ 64)%Z -> e <= 976 -> v * k <= 2 ^ e ->
  exists y, mul_usize x k = Ok y /\ rep (M + 2) (v * k) y /\ (tight x -> tight y).
Proof.
  intros H HM Hk He Hv. destruct k as [|k].
  - exists (Big f_zero 1). split; [reflexivity|]. split; [rewrite Nat.mul_0_r; apply zero_rep; unfold EE; lia|]. intros _. left. cbn. lia.
  - destruct (@mul_usize_ok M (INR v) x (S k) H HM ltac:(lia) Hk) as (y & E & Hy & T); [rewrite <- mult_INR; now apply pow2_DD with e|].
    exists y. split; auto. split; auto. unfold rep. rewrite mult_INR. exact Hy.
Qed.
Lemma mul_big_rep M1 v1 x M2 v2 k e e2 : rep M1 v1 x -> tight x -> rep M2 v2 k -> (1 <= val (mant k))%R -> roomy (M1 + M2) -> e <= 976 -> e2 <= 976 -> v2 <= 2 ^ e2 -> v1 * v2 <= 2 ^ e ->
  exists y, mul_big_number x k = Ok y /\ rep (M1 + M2 + 1) (v1 * v2) y.
Proof.
  intros H1 T H2 Hk HM He He2 Hv2 Hv. destruct (@mul_big_ok M1 (INR v1) x M2 (INR v2) k H1 T H2 Hk HM) as (y & E & Hy); [now apply pow2_DD with e2|rewrite <- mult_INR; now apply pow2_DD with e|].
  exists y. split; auto. unfold rep. rewrite mult_INR. exact Hy.
Qed.
Lemma add_rep M v1 x v2 k e : rep M v1 x -> rep M v2 k -> roomy M -> e <= 976 -> v1 + v2 <= 2 ^ e ->
  exists y, add_big_number x k = Ok y /\ rep (S M) (v1 + v2) y /\ (tight x -> tight k -> tight y).
Proof.
  intros H1 H2 HM He Hv. destruct (@add_ok M (INR v1) x (INR v2) k H1 H2 HM) as (y & E & Hy & T); [rewrite <- plus_INR; now apply pow2_DD with e|].
  exists y. split; auto. split; auto. unfold rep. rewrite plus_INR, <- Nat.add_1_r. exact Hy.
Qed.
(** a float for a fraction *)
Definition frep (M : nat) (f : frac) (x : binary64) : Prop :=
  (snd f <> 0 -> near M (INR (fst f) / INR (snd f)) x) /\ (snd f = 0 -> fst f = 0 -> is_nan 53 1024 x = true).
Lemma div_rep M1 v1 x M2 v2 k : rep M1 v1 x -> rep M2 v2 k -> roomy (M1 + M2) -> v1 <= 2 ^ 976 -> v2 <= 2 ^ 976 -> frep (M1 + M2 + 900) (v1, v2) (div_big_num x k).
Proof.
  intros H1 H2 HM B1 B2. split; cbn [fst snd].
  - intros Hz. apply div_ok; auto; [apply (le_INR 1); lia|apply pow2_DD with 976; auto|apply pow2_DD with 976; auto].
  - intros -> ->. exact (div_nan H1 H2).
Qed.

(** ** one choice *)
Fixpoint tot (es : list nat) : nat := match es with [] => 0 | e :: es => e + tot es end.
Definition tab_small (t : list trow) (e : nat) : Prop := e <= 55 /\ Forall (fun r => snd (fst r) <= 2 ^ e) t.
Lemma pow2_64 e k : e <= 55 -> k <= 2 ^ e -> (Z.of_nat k < 2 ^ 64)%Z.
Proof.
  intros He Hk. apply Z.le_lt_trans with (Z.of_nat (2 ^ e)); [lia|]. rewrite Nat2Z.inj_pow. apply Z.pow_lt_mono_r; lia.
Qed.
Lemma roomy_le M M' : M <= M' -> roomy M' -> roomy M. Proof. unfold roomy, fits. lia. Qed.
Lemma mul_pow2 a b x y : a <= 2 ^ x -> b <= 2 ^ y -> a * b <= 2 ^ (x + y).
Proof. intros Ha Hb. rewrite Nat.pow_add_r. now apply Nat.mul_le_mono. Qed.
Lemma pow2_mono v x y : v <= 2 ^ x -> x <= y -> v <= 2 ^ y.
Proof. intros H L. apply Nat.le_trans with (1 := H). apply Nat.pow_le_mono_r; lia. Qed.
Lemma vget_In {A} (l : list A) i x : vget l i = Ok x -> In x l.
Proof. unfold vget. destruct (nth_error l i) eqn:E; [|discriminate]. intros H. injection H as <-. eapply nth_error_In; eauto. Qed.
Lemma weigh_sim skip : forall tabs es, Forall2 tab_small tabs es -> forall s off w x mn M e,
  rep M w x -> tight x -> w <= 2 ^ e -> e + tot es <= 976 -> roomy (M + 2 * length tabs) ->
  simR (fun a b => snd a = snd b /\ rep (M + 2 * length tabs) (fst a) (fst b) /\ tight (fst b) /\ fst a <= 2 ^ (e + tot es))
    (foldM (fun '(w, mn) '(j, (t, a)) =>
           let* r := vget t a in
           let* mn := usub mn (fst (fst r)) in
           Ok (match skip with
               | Some i => if i =? j then w else w * snd (fst r)
               | None => w * snd (fst r)
               end, mn))
        (combine (seq off (length tabs)) (combine tabs s)) (w, mn))
    (foldM (fun '(w, mn) '(j, (t, a)) =>
           let* r := vget t a in
           let* w := (match skip with
                      | Some i => if i =? j then Ok w else mul_usize w (snd (fst r))
                      | None => mul_usize w (snd (fst r))
                      end) in
           let* mn := usub mn (fst (fst r)) in
           Ok (w, mn))
        (combine (seq off (length tabs)) (combine tabs s)) (x, mn)).
Proof.
  intros tabs es F. induction F as [|t e0 tabs es [He0 Ht] F IH]; intros s off w x mn M e Hr Tx Hw He HM; cbn [length tot] in *.
  - cbn [seq combine foldM]. apply sim_ok. cbn [fst snd]. rewrite !Nat.add_0_r. auto.
  - cbn [seq]. destruct s as [|a s].
    { cbn [combine foldM]. apply sim_ok. cbn [fst snd]. split; auto. split; [eapply rep_mono; [|exact Hr]; lia|]. split; auto. eapply pow2_mono; [exact Hw|]. lia. }
    cbn [combine foldM]. intros z Ez.
    destruct (vget t a) as [r| | |] eqn:Er; cbn [bind] in Ez |- *; try discriminate Ez. pose proof (vget_In Er) as Hin. rewrite Forall_forall in Ht. specialize (Ht r Hin). cbn beta in Ht.
    destruct (usub mn (fst (fst r))) as [mn'| | |] eqn:Eu; cbn [bind] in Ez; try discriminate Ez.
    set (c := snd (fst r)) in *.
    assert (HM0 : roomy M) by (eapply roomy_le; [|exact HM]; lia).
    assert (Hwc : w * c <= 2 ^ (e + e0)) by (now apply mul_pow2).
    destruct (@mul_usize_rep M w x c (e + e0) Hr HM0 (pow2_64 He0 Ht) ltac:(lia) Hwc) as (y & Ey & Hy & Ty).
    assert (HM2 : roomy (M + 2 + 2 * length tabs)) by (eapply roomy_le; [|exact HM]; lia).
    assert (Hw2 : w <= 2 ^ (e + e0)) by (eapply pow2_mono; [exact Hw|]; lia).
    assert (Hr2 : rep (M + 2) w x) by (eapply rep_mono; [|exact Hr]; lia).
    replace (M + 2 * S (length tabs)) with (M + 2 + 2 * length tabs) by lia. rewrite (Nat.add_assoc e e0).
    destruct skip as [i|]; [destruct (i =? off)|].
    + cbn [bind]. cbn [bind]. exact (IH s (S off) w x mn' (M + 2) (e + e0) Hr2 Tx Hw2 ltac:(lia) HM2 z Ez).
    + rewrite Ey. cbn [bind]. exact (IH s (S off) (w * c) y mn' (M + 2) (e + e0) Hy (Ty Tx) Hwc ltac:(lia) HM2 z Ez).
    + rewrite Ey. cbn [bind]. exact (IH s (S off) (w * c) y mn' (M + 2) (e + e0) Hy (Ty Tx) Hwc ltac:(lia) HM2 z Ez).
Qed.

Lemma le_1024 k : k <= 1000 -> k <= 2 ^ 10. Proof. change (2 ^ 10) with 1024. lia. Qed.
#[local] Opaque Nat.pow.
Definition E1 : nat := 838.
Lemma E1_eq : E1 = 838. Proof. reflexivity. Qed.
#[local] Opaque E1.
Lemma one_pow : 1 <= 2 ^ 0. Proof. rewrite Nat.pow_0_r. lia. Qed.

Section Sim.
Variables (ps : list piece) (es : list nat) (U Sm : nat).
Let tabs := map p_table ps.
Let n := length tabs.
Hypothesis Htab : Forall2 tab_small tabs es.
Hypothesis Hcell : Forall (fun pc => length (p_table pc) <= 56 /\ Forall (fun r => Forall (fun c => c <= 2 ^ 55) (snd r)) (p_table pc)) ps.
Hypothesis HA : tot es + U <= 800.
Hypothesis Hn : n <= 800.
Hypothesis HS : Sm <= 2 ^ 38.

Lemma S38 : (Z.of_nat Sm <= 2 ^ 38)%Z.
Proof. apply Nat2Z.inj_le in HS. rewrite Nat2Z.inj_pow in HS. exact HS. Qed.
Lemma room M : M <= 2 * Sm + 10 * 800 -> roomy M.
Proof. intros H. pose proof S38. unfold roomy, fits. change (2 ^ 40)%Z with (4 * 2 ^ 38)%Z. assert (100000 <= 2 ^ 38)%Z by (vm_compute; discriminate). lia. Qed.

Definition C0 : nat := 2 * n + U + 1.
Definition lim (i : nat) : nat := if i =? n then tot es else tot es + U.
Definition ent (i k v : nat) (x : big) : Prop := rep (C0 + k) v x /\ (i = n -> tight x) /\ v <= k * 2 ^ lim i.
Definition orel (kf : nat -> nat) (o : list (list nat)) (x : list (list big)) : Prop :=
  length o = length x /\ forall i, length (nth i o []) = length (nth i x []) /\
    forall a, a < length (nth i o []) -> ent i (kf i) (nth a (nth i o []) 0) (nth a (nth i x []) big_zero).
Lemma ent_mono i k k' v x : k <= k' -> ent i k v x -> ent i k' v x.
Proof. intros H (H1 & H2 & H3). split; [eapply rep_mono; [|exact H1]; lia|]. split; auto. apply Nat.le_trans with (1 := H3). apply Nat.mul_le_mono_r, H. Qed.
Lemma orel_mono kf kf' o x : (forall i, kf i <= kf' i) -> orel kf o x -> orel kf' o x.
Proof. intros H [L K]. split; auto. intros i. destruct (K i) as [L' K']. split; auto. intros a Ha. eapply ent_mono; [apply H|auto]. Qed.
Lemma lim_le i : lim i <= 800. Proof. unfold lim. destruct (i =? n); lia. Qed.
Lemma k_pow k i : k <= Sm -> k * 2 ^ lim i <= 2 ^ (38 + lim i).
Proof. intros H. rewrite Nat.pow_add_r. apply Nat.mul_le_mono_r. lia. Qed.
Lemma add_sim kf o x i a w y : orel kf o x -> rep (C0 + kf i) w y -> (i = n -> tight y) -> w <= 2 ^ lim i -> kf i < Sm ->
  simR (orel (fun j => if j =? i then S (kf j) else kf j)) (add_at o i a w) (add_at_f x i a y).
Proof.
  intros [L H] Hy Ty Hw Hk z Ez. unfold add_at, get, set in Ez. unfold add_at_f, get, set.
  destruct (nth_error o i) as [r|] eqn:Ei; cbn [bind] in Ez; [|discriminate Ez]. destruct (nth_error r a) as [v|] eqn:Ea; cbn [bind] in Ez; [|discriminate Ez].
  assert (Hi : i < length o) by (apply nth_error_Some; congruence). assert (Ha : a < length r) by (apply nth_error_Some; congruence).
  destruct (Nat.ltb_spec a (length r)) as [_|]; [|lia]. injection Ez as <-.
  assert (Er : nth i o [] = r) by (now apply nth_error_nth). assert (Ev : nth a r 0 = v) by (now apply nth_error_nth).
  destruct (H i) as [L' K]. rewrite Er in L', K. destruct (K a Ha) as (R1 & R2 & R3). rewrite Ev in R1, R3.
  rewrite (nth_error_nth' x []) by lia. rewrite (nth_error_nth' (nth i x []) big_zero) by lia. cbn [bind].
  assert (Hsum : v + w <= S (kf i) * 2 ^ lim i) by (cbn [Nat.mul]; lia).
  destruct (@add_rep (C0 + kf i) v (nth a (nth i x []) big_zero) w y (38 + lim i) R1 Hy) as (q & Eq & Hq & Tq).
  { apply room. unfold C0. lia. }
  { pose proof (lim_le i). lia. }
  { apply Nat.le_trans with (1 := Hsum). apply k_pow. lia. }
  rewrite Eq. cbn [bind]. destruct (Nat.ltb_spec a (length (nth i x []))); [|lia].
  eexists. split; [reflexivity|]. split; [now rewrite !length_upd_nth|]. intros j. destruct (Nat.eqb_spec j i) as [->|Hj].
  - rewrite !nth_upd_nth_eq by lia. rewrite !length_upd_nth. split; auto. intros a' Ha'. destruct (Nat.eq_dec a' a) as [->|Hne].
    + rewrite !nth_upd_nth_eq by lia. split; [replace (C0 + S (kf i)) with (S (C0 + kf i)) by lia; exact Hq|]. split; auto.
    + rewrite !nth_upd_nth_neq by auto. eapply ent_mono; [|apply K, Ha']. lia.
  - rewrite !nth_upd_nth_neq by auto. apply H.
Qed.

Variables (unk unkC : list nat) (unkF : list big) (m : nat).
Definition crep (c : nat) (x : big) : Prop := rep U c x /\ (1 <= val (mant x))%R /\ c <= 2 ^ U.
Hypothesis HC : Forall2 crep unkC unkF.

Lemma weigh_sim0 skip s : simR (fun a b => snd a = snd b /\ rep (2 * n) (fst a) (fst b) /\ tight (fst b) /\ fst a <= 2 ^ tot es) (weigh tabs m skip s) (weigh_f tabs m skip s).
Proof.
  unfold weigh, weigh_f. fold n. destruct one_holds as [O1 O2].
  pose proof (@weigh_sim skip tabs es Htab s 0 1 big_one m 0 0 O1 O2 one_pow ltac:(lia)) as H. fold n in H. cbn [Nat.add] in H. apply H. apply room. lia.
Qed.
Lemma tally_sim k o x s : k < Sm -> orel (fun _ => k) o x -> simR (orel (fun _ => S k)) (tally tabs unk unkC m o s) (tally_f tabs unk unkF m x s).
Proof.
  intros Hk Ho. unfold tally, tally_f. fold n.
  assert (G : forall l i0 o x, i0 + l <= n -> orel (fun j => if j <? i0 then S k else k) o x ->
    simR (orel (fun j => if j <? i0 + l then S k else k))
      (foldM (fun other i =>
                  let* (w, mn) := weigh tabs m (Some i) s in
                  let* ps := position unk mn in
                  let* c := vget unkC ps in
                  let* a := vget s i in
                  add_at other i a (w * c)) (seq i0 l) o)
      (foldM (fun other i =>
                  let* (w, mn) := weigh_f tabs m (Some i) s in
                  let* ps := position unk mn in
                  let* c := vget unkF ps in
                  let* w := mul_big_number w c in
                  let* a := vget s i in
                  add_at_f other i a w) (seq i0 l) x)).
  { intros l. induction l as [|l IH]; intros i0 o1 x1 Hl H1; cbn [seq foldM].
    - apply sim_ok. now rewrite Nat.add_0_r.
    - eapply sim_bind with (P := orel (fun j => if j <? S i0 then S k else k)).
      2:{ intros o2 x2 _ H2. replace (i0 + S l) with (S i0 + l) by lia. apply IH; auto. lia. }
      eapply sim_bind; [apply weigh_sim0|]. intros [w mn] [y mn'] _ (E1 & Hy & Ty & Hw). cbn [fst snd] in *. subst mn'.
      apply sim_same. intros q _. eapply sim_bind; [exact (fun z => @sim_vget _ _ _ _ _ q HC z)|]. intros c xc _ (Hc1 & Hc2 & Hc3).
      destruct (@mul_big_rep (2 * n) w y U c xc (tot es + U) U Hy Ty Hc1 Hc2) as (y2 & Ey & Hy2); [apply room; lia|lia|lia|exact Hc3|now apply mul_pow2|].
      rewrite Ey. cbn [bind]. apply sim_same. intros a _.
      eapply sim_mono; [|apply (@add_sim (fun j => if j <? i0 then S k else k) o1 x1 i0 a (w * c) y2 H1)].
      + intros o2 x2. apply orel_mono. intros j. destruct (Nat.eqb_spec j i0) as [->|]; [destruct (Nat.ltb_spec i0 i0), (Nat.ltb_spec i0 (S i0)); lia|].
        destruct (Nat.ltb_spec j i0), (Nat.ltb_spec j (S i0)); lia.
      + eapply rep_mono; [|exact Hy2]. unfold C0. lia.
      + intros ->. lia.
      + unfold lim. destruct (Nat.eqb_spec i0 n); [lia|]. now apply mul_pow2.
      + destruct (Nat.ltb_spec i0 i0); lia. }
  eapply sim_bind; [apply (G n 0 o x)|].
  - lia.
  - eapply orel_mono; [|exact Ho]. intros j. cbn beta. destruct (j <? 0); lia.
  - intros o1 x1 _ H1. cbn [Nat.add] in H1. eapply sim_bind; [apply weigh_sim0|]. intros [w mn] [y mn'] _ (E1 & Hy & Ty & Hw). cbn [fst snd] in *. subst mn'.
    apply sim_same. intros q _. eapply sim_mono; [|apply (@add_sim _ o1 x1 n q w y H1)].
    + intros o2 x2. apply orel_mono. intros j. destruct (Nat.eqb_spec j n), (Nat.ltb_spec j n); lia.
    + eapply rep_mono; [|exact Hy]. unfold C0. lia.
    + auto.
    + unfold lim. now rewrite Nat.eqb_refl.
    + cbn beta. destruct (Nat.ltb_spec n n); lia.
Qed.

(** ** sums *)
Definition C1 : nat := C0 + Sm + U + 1.
Lemma on_rel o x : orel (fun _ => Sm) o x -> Forall2 (ent n Sm) (nth n o []) (nth n x []).
Proof. intros [_ H]. destruct (H n) as [L K]. now apply Forall2_nth with (d := 0) (d' := big_zero). Qed.
Lemma prod_T v x c xc : ent n Sm v x -> crep c xc -> exists y, mul_big_number x xc = Ok y /\ rep C1 (v * c) y /\ v * c <= 2 ^ E1.
Proof.
  intros (H1 & H2 & H3) (K1 & K2 & K3). unfold lim in H3. rewrite Nat.eqb_refl in H3.
  assert (Hv : v <= 2 ^ (38 + tot es)) by (apply Nat.le_trans with (1 := H3); rewrite Nat.pow_add_r; apply Nat.mul_le_mono_r; exact HS).
  assert (Hvc : v * c <= 2 ^ (38 + tot es + U)) by (now apply mul_pow2).
  destruct (@mul_big_rep (C0 + Sm) v x U c xc (38 + tot es + U) U H1 (H2 eq_refl) K1 K2) as (y & Ey & Hy); auto; try lia.
  - apply room. unfold C0. lia.
  - exists y. split; [exact Ey|]. split; [exact Hy|]. apply (@pow2_mono _ _ _ Hvc). pose proof E1_eq. lia.
Qed.
(** a sum of at most 2^10 numbers *)
Definition acc (M e k v : nat) (x : big) : Prop := rep (M + k) v x /\ v <= k * 2 ^ e.
Lemma acc_bound M e k v x : acc M e k v x -> k <= 2 ^ 10 -> v <= 2 ^ (10 + e).
Proof. intros [_ H] Hk. apply Nat.le_trans with (1 := H). rewrite Nat.pow_add_r. apply Nat.mul_le_mono_r, Hk. Qed.
Lemma acc_step M e k v x u y : acc M e k v x -> rep M u y -> u <= 2 ^ e -> S k <= 2 ^ 10 -> e <= 960 -> roomy (M + k) ->
  exists z, add_big_number x y = Ok z /\ acc M e (S k) (v + u) z.
Proof.
  intros [H1 H2] Hy Hu Hk He HM.
  assert (Hs : v + u <= S k * 2 ^ e) by (cbn [Nat.mul]; lia).
  destruct (@add_rep (M + k) v x u y (10 + e) H1) as (z & Ez & Hz & _); auto.
  - eapply rep_mono; [|exact Hy]. lia.
  - lia.
  - apply Nat.le_trans with (1 := Hs). rewrite Nat.pow_add_r. apply Nat.mul_le_mono_r, Hk.
  - exists z. split; auto. split; auto. replace (M + S k) with (S (M + k)) by lia. exact Hz.
Qed.
Lemma acc_zero M e : acc M e 0 0 big_zero.
Proof. split; [|lia]. apply zero_rep. unfold EE. lia. Qed.

Hypothesis Hlen : length unkC <= U + 1.
Lemma T_sim o x : orel (fun _ => Sm) o x ->
  simR (acc C1 E1 (length (combine (nth n o []) unkC)))
    (foldM (fun T '(o, c) => Ok (T + o * c)) (combine (nth n o []) unkC) 0)
    (foldM (fun T '(o, c) => let* t := mul_big_number o c in add_big_number T t) (combine (nth n x []) unkF) big_zero).
Proof.
  intros Ho. pose proof (Forall2_combine (on_rel Ho) HC) as F.
  apply (@sim_foldM _ _ _ _ (acc C1 E1) _ _ _ (U + 1)) with (2 := F) (k := 0).
  - intros k s s' [v c] [y xc] Hk Hacc [Q1 Q2]. cbn [fst snd] in Q1, Q2. destruct (prod_T Q1 Q2) as (z & Ez & Hz & Bz). rewrite Ez. cbn [bind].
    destruct (acc_step Hacc Hz Bz) as (q & Eq & Hq); [apply le_1024; lia|pose proof E1_eq; lia|apply room; unfold C1, C0; lia|]. rewrite Eq. now apply sim_ok.
  - cbn [Nat.add]. rewrite combine_length. lia.
  - apply acc_zero.
Qed.
Hypothesis Hunk : Forall (fun k => k <= 800) unk.
Lemma u_sim o x : orel (fun _ => Sm) o x ->
  simR (acc (C1 + 2) (E1 + 10) (length (combine (nth n o []) (combine unkC unk))))
    (foldM (fun u '(o, (c, k)) => Ok (u + o * c * k)) (combine (nth n o []) (combine unkC unk)) 0)
    (foldM (fun u '(o, (c, k)) => let* t := mul_big_number o c in let* t := mul_usize t k in add_big_number u t) (combine (nth n x []) (combine unkF unk)) big_zero).
Proof.
  intros Ho. pose proof (Forall2_combine (on_rel Ho) (Forall2_combine HC (Forall2_same Hunk))) as F.
  apply (@sim_foldM _ _ _ _ (acc (C1 + 2) (E1 + 10)) _ _ _ (U + 1)) with (2 := F) (k := 0).
  - intros k s s' [v [c u]] [y [xc u']] Hk Hacc [Q1 [Q2 [Q3 Q4]]]. cbn [fst snd] in Q1, Q2, Q3, Q4. subst u'. destruct (prod_T Q1 Q2) as (z & Ez & Hz & Bz). rewrite Ez. cbn [bind].
    assert (Bu : v * c * u <= 2 ^ (E1 + 10)). { apply mul_pow2; auto. apply le_1024. lia. }
    destruct (@mul_usize_rep C1 (v * c) z u (E1 + 10) Hz) as (z2 & Ez2 & Hz2 & _); auto; [apply room; unfold C1, C0; lia|lia|pose proof E1_eq; lia|]. rewrite Ez2. cbn [bind].
    destruct (acc_step Hacc Hz2 Bu) as (q & Eq & Hq); [apply le_1024; lia|pose proof E1_eq; lia|apply room; unfold C1, C0; lia|]. rewrite Eq. now apply sim_ok.
  - cbn [Nat.add]. rewrite !combine_length. lia.
  - apply acc_zero.
Qed.
Lemma num_sim i oi xi cells j : Forall2 (ent i Sm) oi xi -> length cells <= 56 -> Forall (Forall (fun c => c <= 2 ^ 55)) cells ->
  simR (acc (C0 + Sm + 2) (E1 + 55) (length (combine oi cells)))
    (foldM (fun num '(o, cells) => let* c := vget cells j in Ok (num + o * c)) (combine oi cells) 0)
    (foldM (fun num '(o, cells) => let* c := vget cells j in let* o := mul_usize o c in add_big_number num o) (combine xi cells) big_zero).
Proof.
  intros Ho Hl Hc. pose proof (Forall2_combine Ho (Forall2_same Hc)) as F.
  apply (@sim_foldM _ _ _ _ (acc (C0 + Sm + 2) (E1 + 55)) _ _ _ 56) with (2 := F) (k := 0).
  - intros k s s' [v cl] [y cl'] Hk Hacc [Q1 [Q2 Q3]]. cbn [fst snd] in Q1, Q2, Q3. subst cl'. apply sim_same. intros c Ec. pose proof (vget_In Ec) as Hin. rewrite Forall_forall in Q3. specialize (Q3 c Hin). cbn beta in Q3.
    destruct Q1 as (R1 & _ & R3).
    assert (Bu : v * c <= 2 ^ (E1 + 55)).
    { apply mul_pow2; [|exact Q3]. apply Nat.le_trans with (1 := R3). apply Nat.le_trans with (1 := k_pow i (le_n Sm)). apply Nat.pow_le_mono_r; [lia|]. pose proof (lim_le i). pose proof E1_eq. lia. }
    destruct (@mul_usize_rep (C0 + Sm) v y c (E1 + 55) R1) as (z2 & Ez2 & Hz2 & _); [apply room; unfold C0; lia|exact (@pow2_64 55 c (le_n 55) Q3)|pose proof E1_eq; lia|exact Bu|]. rewrite Ez2. cbn [bind].
    destruct (acc_step Hacc Hz2 Bu) as (q & Eq & Hq); [apply le_1024; lia|pose proof E1_eq; lia|apply room; unfold C0; lia|]. rewrite Eq. now apply sim_ok.
  - cbn [Nat.add]. rewrite combine_length. lia.
  - apply acc_zero.
Qed.
End Sim.
