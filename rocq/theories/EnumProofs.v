(** * EnumProofs: the enumeration tables count the solutions of a block exactly. *)
From Verif Require Import Base Spec BaseFacts Matrix Solve SolverSpec MatrixProofs LinFacts ChunkProofs SolveProofs CombineProofs TableProofs.
Open Scope nat_scope.

(** ** sums over subsets *)
Lemma subs_cons {A} (H : list A -> nat) a l : sumn H (subs (a :: l)) = sumn H (subs l) + sumn (fun s => H (a :: s)) (subs l).
Proof. cbn [subs]. now rewrite sumn_app, sumn_map. Qed.
Lemma subs_app {A} (l1 l2 : list A) : forall H, sumn H (subs (l1 ++ l2)) = sumn (fun s1 => sumn (fun s2 => H (s1 ++ s2)) (subs l2)) (subs l1).
Proof.
  induction l1 as [|a l1 IH]; intros H; cbn [app]; [cbn [subs sumn app]; now rewrite Nat.add_0_r|]. rewrite !subs_cons, !IH. reflexivity.
Qed.
Lemma subs_perm {A} (l l' : list A) : Permutation l l' -> forall H, (forall s s', Permutation s s' -> H s = H s') -> sumn H (subs l) = sumn H (subs l').
Proof.
  induction 1 as [|x l l' P IHP|x y l|l l2 l3 P1 IHP1 P2 IHP2]; intros H HH; auto.
  - rewrite !subs_cons, (IHP H HH). f_equal. apply IHP. intros s s' Ps. apply HH. now constructor.
  - rewrite !subs_cons. rewrite (@sumn_ext _ (fun s => H (y :: x :: s)) (fun s => H (x :: y :: s))); [lia|]. intros s _. apply HH. constructor.
  - rewrite (IHP1 H HH). apply IHP2, HH.
Qed.
Lemma subs_incl {A} (l s : list A) : In s (subs l) -> incl s l.
Proof.
  revert s; induction l as [|a l IH]; intros s Hs; cbn in Hs; [destruct Hs as [<-|[]]; intros x []|].
  apply in_app_iff in Hs as [Hs|Hs]; [intros x Hx; right; now apply (IH s)|].
  apply in_map_iff in Hs as (s' & <- & Hs'). intros x [<-|Hx]; [now left|right; now apply (IH s')].
Qed.
Lemma subs_NoDup {A} (l s : list A) : NoDup l -> In s (subs l) -> NoDup s.
Proof.
  revert s; induction l as [|a l IH]; intros s Hn Hs; cbn in Hs; [destruct Hs as [<-|[]]; constructor|]. inversion Hn; subst.
  apply in_app_iff in Hs as [Hs|Hs]; auto. apply in_map_iff in Hs as (s' & <- & Hs'). constructor; auto. intros Hi. apply H1, (subs_incl Hs' Hi).
Qed.

Lemma binom_out n : forall k, n < k -> binom n k = 0.
Proof. induction n as [|n IH]; intros [|k] H; cbn; try lia. rewrite !IH; lia. Qed.
Lemma binom_0 n : binom n 0 = 1. Proof. destruct n; reflexivity. Qed.
Lemma binom_absorb n : forall k, binom (S n) (S k) * S k = S n * binom n k.
Proof.
  induction n as [|n IH]; intros k.
  - destruct k; cbn; lia.
  - destruct k as [|k].
    + cbn [binom]. rewrite !binom_0. specialize (IH 0). rewrite binom_0 in IH. cbn [binom] in IH |- *. rewrite binom_0 in IH. lia.
    + change (binom (S (S n)) (S (S k))) with (binom (S n) (S k) + binom (S n) (S (S k))).
      pose proof (IH k) as I1. pose proof (IH (S k)) as I2. change (binom (S n) (S k)) with (binom n k + binom n (S k)) in *. nia.
Qed.

Lemma sumn_seq_shift (f : nat -> nat) a n : sumn f (seq (S a) n) = sumn (fun u => f (S u)) (seq a n).
Proof. rewrite <- seq_shift, sumn_map. reflexivity. Qed.

Lemma subs_by_size {A} (g : list A) : forall h, sumn (fun s => h (length s)) (subs g) = sumn (fun u => binom (length g) u * h u) (seq 0 (S (length g))).
Proof.
  induction g as [|a g IH]; intros h; [cbn; lia|].
  rewrite subs_cons. rewrite IH. cbn [length]. rewrite (IH (fun u => h (S u))).
  set (n := length g). 
  change (seq 0 (S (S n))) with (0 :: seq 1 (S n)). cbn [sumn]. rewrite sumn_seq_shift. rewrite binom_0.
  rewrite (@sumn_ext _ (fun u => binom (S n) (S u) * h (S u)) (fun u => binom n u * h (S u) + binom n (S u) * h (S u))).
  2:{ intros u _. cbn [binom]. lia. }
  rewrite sumn_add. 
  assert (E : sumn (fun u => binom n u * h u) (seq 0 (S n)) = h 0 + sumn (fun u => binom n (S u) * h (S u)) (seq 0 (S n))).
  { replace (sumn (fun u => binom n (S u) * h (S u)) (seq 0 (S n))) with (sumn (fun u => binom n (S u) * h (S u)) (seq 0 n)).
    2:{ rewrite (seq_S n 0), sumn_app. cbn [sumn Nat.add]. rewrite (@binom_out n (S n)) by lia. lia. }
    change (seq 0 (S n)) with (0 :: seq 1 n). cbn [sumn]. rewrite binom_0, sumn_seq_shift. lia. }
  rewrite E. lia.
Qed.
Lemma mem_cons p q s : mem_pos p (q :: s) = posb p q || mem_pos p s. Proof. reflexivity. Qed.
Lemma mem_false p s : ~ In p s -> mem_pos p s = false.
Proof. destruct (mem_pos_spec p s); tauto. Qed.
Lemma mem_true p s : In p s -> mem_pos p s = true.
Proof. destruct (mem_pos_spec p s); tauto. Qed.
Lemma mem_permut p s s' : Permutation s s' -> mem_pos p s = mem_pos p s'.
Proof. intros P. apply eq_true_iff_eq. rewrite !mem_pos_true. split; apply Permutation_in; auto. now symmetry. Qed.

Lemma subs_by_size_at (g : list pos) p h : NoDup g -> In p g ->
  length g * sumn (fun s => if mem_pos p s then h (length s) else 0) (subs g) = sumn (fun u => binom (length g) u * u * h u) (seq 0 (S (length g))).
Proof.
  intros Hn Hp. destruct (in_split p g Hp) as (a & b & ->).
  assert (P : Permutation (a ++ p :: b) (p :: a ++ b)) by (symmetry; apply Permutation_middle).
  rewrite (subs_perm P). 2:{ intros s s' Ps. rewrite (mem_permut p Ps), (Permutation_length Ps). reflexivity. }
  pose proof (Permutation_NoDup P Hn) as Hn'. inversion Hn' as [|? ? Hni Hnd]; subst.
  rewrite (Permutation_length P). cbn [length]. set (g := a ++ b) in *.
  rewrite subs_cons. rewrite sumn_zero. 2:{ intros s Hs. rewrite mem_false; auto. intros Hi. apply Hni. exact (subs_incl Hs Hi). }
  rewrite (@sumn_ext _ _ (fun s => h (S (length s)))). 2:{ intros s _. now rewrite mem_cons, posb_refl. }
  rewrite (subs_by_size g (fun u => h (S u))). change (seq 0 (S (S (length g)))) with (0 :: seq 1 (S (length g))). cbn [sumn]. rewrite sumn_seq_shift.
  rewrite Nat.add_0_l. rewrite <- sumn_scale. rewrite Nat.mul_0_r, Nat.mul_0_l, Nat.add_0_l. apply sumn_ext. intros u _.
  pose proof (binom_absorb (length g) u). nia.
Qed.

(** ** grouped counting *)
Definition cnt (gl : list (list pos)) (s : list pos) : list nat := map (fun g => count (fun q => mem_pos q s) g) gl.

Lemma count_in_sub (g s1 s2 : list pos) : NoDup g -> In s1 (subs g) -> (forall q, In q s2 -> ~ In q g) ->
  count (fun q => mem_pos q (s1 ++ s2)) g = length s1.
Proof.
  intros Hn Hs Hd. unfold count.
  assert (N1 : NoDup s1) by exact (subs_NoDup Hn Hs).
  apply Permutation_length, NoDup_Permutation; [now apply NoDup_filter|auto|]. intros q. rewrite filter_In, mem_pos_true, in_app_iff. split.
  - intros [Hg [H|H]]; auto. exfalso. eapply Hd; eauto.
  - intros H. split; auto. exact (subs_incl Hs H).
Qed.
Lemma cnt_app_l gl s1 s2 : (forall g q, In g gl -> In q s1 -> ~ In q g) -> cnt gl (s1 ++ s2) = cnt gl s2.
Proof.
  intros H. unfold cnt. apply map_ext_in. intros g Hg. apply count_ext. intros q Hq. rewrite mem_app.
  rewrite mem_false; auto. intros Hi. eapply H; eauto.
Qed.

Lemma forallb_ext_in {A} (f g : A -> bool) l : (forall a, In a l -> f a = g a) -> forallb f l = forallb g l.
Proof. induction l as [|a l IH]; cbn; intros H; auto. rewrite H, IH; auto. Qed.

Section Count.
Variables (A : list (list Z)) (groups : list (list nat)).
Let n := length groups.
Let m := length A.
Notation on := (on A). Notation len := (len groups). Notation comps := (comps A groups). Notation W := (W groups). Notation dec := (dec A).

(** the remaining equations hold for the numbers of mines [us] of columns idx, idx+1, ... *)
Fixpoint used (i idx : nat) (us : list nat) : Z :=
  match us with [] => 0%Z | u :: us => ((if on i idx then Z.of_nat u else 0) + used i (S idx) us)%Z end.
Definition fits (idx : nat) (rem : list Z) (us : list nat) : bool :=
  forallb (fun i => used i idx us =? nth i rem 0)%Z (seq 0 m).

Lemma fits_cons idx rem u us : fits idx rem (u :: us) = fits (S idx) (dec idx u rem) us.
Proof.
  unfold fits. apply forallb_ext_in. intros i Hi. apply in_seq in Hi. rewrite nth_dec by (fold m; lia). cbn [used].
  apply eq_true_iff_eq. rewrite !Z.eqb_eq. lia.
Qed.
Lemma fits_nil idx rem : length rem = m -> fits idx rem [] = forallb (fun r => r =? 0)%Z rem.
Proof.
  intros Hl. unfold fits. cbn [used]. apply eq_true_iff_eq. rewrite !forallb_forall. split; intros H.
  - intros r Hr. apply (In_nth _ _ 0%Z) in Hr as (i & Hi & <-). specialize (H i ltac:(apply in_seq; lia)). apply Z.eqb_eq in H. apply Z.eqb_eq. lia.
  - intros i Hi. apply in_seq in Hi. specialize (H (nth i rem 0%Z) ltac:(apply nth_In; lia)). apply Z.eqb_eq in H. apply Z.eqb_eq. lia.
Qed.

Lemma grouped_count gl : forall idx rem (psi : list nat -> nat), NoDup (concat gl) -> length rem = m ->
  (forall j, j < length gl -> length (nth j gl []) = len (idx + j)) ->
  sumn (fun s => if fits idx rem (cnt gl s) then psi (cnt gl s) else 0) (subs (concat gl)) =
  sumn (fun us => W idx us * psi us) (comps (length gl) idx rem).
Proof.
  induction gl as [|g gl IH]; intros idx rem psi Hn Hl Hlen.
  - cbn [concat subs sumn length TableProofs.comps]. unfold cnt. cbn [map]. rewrite fits_nil by auto. destruct (forallb (fun r => (r =? 0)%Z) rem); cbn; lia.
  - cbn [concat length TableProofs.comps]. rewrite subs_app, sumn_flat_map. cbn [concat] in Hn.
    pose proof (NoDup_app_l Hn) as Ng. pose proof (NoDup_app_r Hn) as Nr.
    assert (Hdis : forall q, In q g -> ~ In q (concat gl)).
    { clear - Hn. induction g as [|a g IHg]; cbn in *; [tauto|]. inversion Hn; subst. intros q [<-|Hq]; [intros Hi; apply H1, in_app_iff; auto|auto]. }
    assert (Lg : length g = len idx) by (specialize (Hlen 0 ltac:(cbn; lia)); cbn [nth] in Hlen; now rewrite Nat.add_0_r in Hlen).
    set (h := fun u => sumn (fun us => W (S idx) us * psi (u :: us)) (comps (length gl) (S idx) (dec idx u rem))).
    rewrite (@sumn_ext _ _ (fun s1 => h (length s1))).
    + rewrite subs_by_size, Lg. apply sumn_ext. intros u _. rewrite sumn_map. unfold h. rewrite <- sumn_scale. apply sumn_ext. intros us _. cbn [TableProofs.W]. lia.
    + intros s1 Hs1. unfold h. rewrite <- (IH (S idx) (dec idx (length s1) rem) (fun us => psi (length s1 :: us))); auto.
      * apply sumn_ext. intros s2 Hs2.
        assert (Ec : cnt (g :: gl) (s1 ++ s2) = length s1 :: cnt gl s2).
        { unfold cnt at 1. cbn [map]. rewrite count_in_sub; auto.
          - f_equal. apply cnt_app_l. intros g' q Hg' Hq Hi. apply (Hdis q); [exact (subs_incl Hs1 Hq)|]. apply in_concat. eauto.
          - intros q Hq Hi. apply (Hdis q Hi). exact (subs_incl Hs2 Hq). }
        rewrite Ec, fits_cons. reflexivity.
      * apply length_dec.
      * intros j Hj. specialize (Hlen (S j) ltac:(cbn; lia)). cbn [nth] in Hlen. rewrite Hlen. f_equal. lia.
Qed.

Lemma grouped_count_at gl : forall idx rem (psi : list nat -> nat) j p, NoDup (concat gl) -> length rem = m ->
  (forall j, j < length gl -> length (nth j gl []) = len (idx + j)) ->
  j < length gl -> In p (nth j gl []) ->
  len (idx + j) * sumn (fun s => if fits idx rem (cnt gl s) && mem_pos p s then psi (cnt gl s) else 0) (subs (concat gl)) =
  sumn (fun us => W idx us * nth j us 0 * psi us) (comps (length gl) idx rem).
Proof.
  induction gl as [|g gl IH]; intros idx rem psi j p Hn Hl Hlen Hj Hp; [cbn in Hj; lia|].
  cbn [concat length TableProofs.comps]. rewrite subs_app, sumn_flat_map. cbn [concat] in Hn.
  pose proof (NoDup_app_l Hn) as Ng. pose proof (NoDup_app_r Hn) as Nr.
  assert (Hdis : forall q, In q g -> ~ In q (concat gl)).
  { clear - Hn. induction g as [|a g IHg]; cbn in *; [tauto|]. inversion Hn; subst. intros q [<-|Hq]; [intros Hi; apply H1, in_app_iff; auto|auto]. }
  assert (Lg : length g = len idx) by (specialize (Hlen 0 ltac:(cbn; lia)); cbn [nth] in Hlen; now rewrite Nat.add_0_r in Hlen).
  assert (Hlen' : forall j, j < length gl -> length (nth j gl []) = len (S idx + j)).
  { intros k Hk. specialize (Hlen (S k) ltac:(cbn; lia)). cbn [nth] in Hlen. rewrite Hlen. f_equal. lia. }
  assert (Ec : forall s1 s2, In s1 (subs g) -> In s2 (subs (concat gl)) -> cnt (g :: gl) (s1 ++ s2) = length s1 :: cnt gl s2).
  { intros s1 s2 Hs1 Hs2. unfold cnt at 1. cbn [map]. rewrite count_in_sub; auto.
    - f_equal. apply cnt_app_l. intros g' q Hg' Hq Hi. apply (Hdis q); [exact (subs_incl Hs1 Hq)|]. apply in_concat. eauto.
    - intros q Hq Hi. apply (Hdis q Hi). exact (subs_incl Hs2 Hq). }
  destruct j as [|j].
  - cbn [nth] in Hp. rewrite Nat.add_0_r.
    set (h := fun u => sumn (fun us => W (S idx) us * psi (u :: us)) (comps (length gl) (S idx) (dec idx u rem))).
    rewrite (@sumn_ext _ _ (fun s1 => if mem_pos p s1 then h (length s1) else 0)).
    + rewrite <- Lg, subs_by_size_at by auto. apply sumn_ext. intros u _. rewrite sumn_map. unfold h. rewrite <- sumn_scale. apply sumn_ext. intros us _. cbn [TableProofs.W nth]. rewrite <- Lg. lia.
    + intros s1 Hs1. unfold h. rewrite <- (@grouped_count gl (S idx) (dec idx (length s1) rem) (fun us => psi (length s1 :: us))); auto; [|apply length_dec].
      destruct (mem_pos p s1) eqn:Em.
      * apply sumn_ext. intros s2 Hs2. rewrite mem_app, Em. cbn [orb]. rewrite andb_true_r, Ec, fits_cons by auto. reflexivity.
      * apply sumn_zero. intros s2 Hs2. rewrite mem_app, Em. cbn [orb]. rewrite mem_false, andb_false_r; auto. intros Hi. apply (Hdis p Hp). exact (subs_incl Hs2 Hi).
  - cbn [nth] in Hp. cbn [length] in Hj.
    set (h := fun u => sumn (fun us => W (S idx) us * nth j us 0 * psi (u :: us)) (comps (length gl) (S idx) (dec idx u rem))).
    rewrite <- sumn_scale. rewrite (@sumn_ext _ _ (fun s1 => h (length s1))).
    + rewrite subs_by_size, Lg. apply sumn_ext. intros u _. rewrite sumn_map. unfold h. rewrite <- sumn_scale. apply sumn_ext. intros us _. cbn [TableProofs.W nth]. lia.
    + intros s1 Hs1. unfold h. rewrite <- (IH (S idx) (dec idx (length s1) rem) (fun us => psi (length s1 :: us)) j p); auto; [|apply length_dec|lia].
      rewrite Nat.add_succ_comm. f_equal. apply sumn_ext. intros s2 Hs2. rewrite Ec, fits_cons by auto.
      rewrite mem_app. rewrite (@mem_false p s1); [reflexivity|]. intros Hi. apply (Hdis p); [exact (subs_incl Hs1 Hi)|].
      apply in_concat. exists (nth j gl []). split; auto. apply nth_In. lia.
Qed.

(** the division in the table is exact *)
Lemma W_divides idx us j : j < length us -> (forall k, k < length us -> nth k us 0 <= len (idx + k)) -> 1 <= len (idx + j) ->
  exists q, W idx us * nth j us 0 = len (idx + j) * q.
Proof.
  revert idx j; induction us as [|u us IH]; intros idx j Hj Hb Hp; cbn in Hj; [lia|]. cbn [TableProofs.W]. destruct j as [|j]; cbn [nth].
  - rewrite Nat.add_0_r in *. destruct u as [|u]; [exists 0; lia|]. destruct (len idx) as [|l]; [lia|].
    pose proof (binom_absorb l u). exists (binom l u * W (S idx) us). nia.
  - rewrite <- Nat.add_succ_comm in *. destruct (IH (S idx) j) as (q & E); [lia| |auto|].
    + intros k Hk. specialize (Hb (S k) ltac:(cbn; lia)). cbn [nth] in Hb. now rewrite Nat.add_succ_comm.
    + exists (binom (len idx) u * q). nia.
Qed.
End Count.
