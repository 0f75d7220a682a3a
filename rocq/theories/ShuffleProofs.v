(** * ShuffleProofs: the js shuffle is unbiased: each arrangement comes from exactly one sequence of
    draws, and each draw is uniform over its range. *)
From Verif Require Import Base Spec BaseFacts LayMine LayMineProofs.
Open Scope Z_scope.

Lemma random_int_one limit t ws : 0 < limit <= 4294967295 -> 0 <= t < limit -> get_random_int limit (t :: ws) = Ok (t, ws).
Proof.
  intros Hl Ht. cbn [get_random_int]. destruct (Z.eqb_spec limit 0); [lia|].
  assert (1 <= 4294967295 / limit) by (apply Z.div_le_lower_bound; lia).
  destruct (Z.ltb_spec t (4294967295 / limit * limit)); [|nia]. now rewrite Z.mod_small by lia.
Qed.
Lemma random_int_accept limit t r : 0 < limit <= 4294967295 -> 0 <= t ->
  (get_random_int limit [t] = Ok (r, []) <-> 0 <= r < limit /\ exists k, 0 <= k < 4294967295 / limit /\ t = r + k * limit).
Proof.
  intros Hl Ht. cbn [get_random_int]. destruct (Z.eqb_spec limit 0); [lia|]. set (q := 4294967295 / limit).
  assert (1 <= q) by (apply Z.div_le_lower_bound; lia). destruct (Z.ltb_spec t (q * limit)) as [Hlt|Hge].
  - split.
    + intros E. injection E as <-. pose proof (Z.mod_pos_bound t limit ltac:(lia)). split; auto. exists (t / limit).
      pose proof (Z.div_mod t limit ltac:(lia)). split; [|lia]. split; [apply Z.div_pos; lia|]. apply Z.div_lt_upper_bound; lia.
    + intros (Hr & k & Hk & ->). f_equal. f_equal. rewrite Z.mod_add by lia. now apply Z.mod_small.
  - split; [discriminate|]. intros (Hr & k & Hk & ->). nia.
Qed.

(** one step of the loop *)
Definition sh_step : list Z * list Z -> nat -> R (list Z * list Z) :=
  fun '(v, ws) i =>
           let* r := get_random_int (Z.of_nat i + 1) ws in
           let '(id, ws) := r in
           let id := Z.to_nat id in
           let* t := vget v i in
           let* u := vget v id in
           let* v := vset v i u in
           let* v := vset v id t in
           Ok (v, ws).
Lemma shuffle_unfold l ws : shuffle_ l ws = foldM sh_step (rng 1 (length l)) (l, ws). Proof. reflexivity. Qed.
Lemma upd_nth_app1 {A} (l r : list A) i x : (i < length l)%nat -> upd_nth (l ++ r) i x = upd_nth l i x ++ r.
Proof. revert i; induction l as [|a l IH]; intros [|i] H; cbn in *; try lia; auto. rewrite IH by lia. reflexivity. Qed.
Lemma random_int_app limit ws id ws' z : get_random_int limit ws = Ok (id, ws') -> limit <> 0 -> get_random_int limit (ws ++ z) = Ok (id, ws' ++ z).
Proof.
  intros E H. induction ws as [|t ws IH]; cbn [get_random_int app] in *; destruct (Z.eqb_spec limit 0); try contradiction; [discriminate|].
  destruct (t <? _); [injection E as <- <-; reflexivity|auto].
Qed.
Lemma sh_app is : forall v ws v' ws' y z, foldM sh_step is (v, ws) = Ok (v', ws') ->
  length v' = length v /\ foldM sh_step is (v ++ y, ws ++ z) = Ok (v' ++ y, ws' ++ z).
Proof.
  induction is as [|i is IH]; intros v ws v' ws' y z E; [injection E as <- <-; auto|]. cbn [foldM] in E |- *.
  apply bind_ok in E as ([v1 ws1] & E1 & E). unfold sh_step in E1. apply bind_ok in E1 as ([id ws2] & R & E1).
  apply bind_ok in E1 as (t & G1 & E1). apply bind_ok in E1 as (u & G2 & E1). apply bind_ok in E1 as (v2 & S1 & E1). apply bind_ok in E1 as (v3 & S2 & E1). injection E1 as <- <-.
  unfold vget in G1, G2. destruct (nth_error v i) eqn:N1; [|discriminate]. destruct (nth_error v (Z.to_nat id)) eqn:N2; [|discriminate]. injection G1 as ->. injection G2 as ->.
  assert (L1 : (i < length v)%nat) by (apply nth_error_Some; congruence). assert (L2 : (Z.to_nat id < length v)%nat) by (apply nth_error_Some; congruence).
  rewrite vset_ok in S1 by auto. injection S1 as <-. rewrite vset_ok in S2 by (now rewrite length_upd_nth). injection S2 as <-.
  assert (Es : sh_step (v ++ y, ws ++ z) i = Ok (upd_nth (upd_nth v i u) (Z.to_nat id) t ++ y, ws2 ++ z)).
  { unfold sh_step. rewrite (@random_int_app _ _ _ _ z R) by lia. cbn [bind]. unfold vget. rewrite !nth_error_app1, N1, N2 by auto. cbn [bind].
    rewrite vset_ok by (rewrite app_length; lia). cbn [bind]. rewrite upd_nth_app1 by auto. rewrite vset_ok by (rewrite app_length, length_upd_nth; lia). cbn [bind].
    rewrite upd_nth_app1 by (rewrite length_upd_nth; auto). reflexivity. }
  rewrite Es. cbn [bind]. destruct (IH _ _ _ _ y z E) as [L E']. split; [now rewrite L, !length_upd_nth|exact E'].
Qed.

(** the last step: [x] goes to place [d], the element there goes to the end *)
Definition sw (p : list Z) (x : Z) (d : nat) : list Z :=
  if (d =? length p)%nat then p ++ [x] else firstn d p ++ x :: skipn (S d) p ++ [nth d p 0].
Definition draws (n : nat) (ds : list Z) : Prop :=
  length ds = (n - 1)%nat /\ forall i, (i < n - 1)%nat -> 0 <= nth i ds 0 <= Z.of_nat i + 1.

Lemma upd_nth_split {A} (l : list A) d x : (d < length l)%nat -> upd_nth l d x = firstn d l ++ x :: skipn (S d) l.
Proof. revert d; induction l as [|a l IH]; intros [|d] H; cbn in *; try lia; auto. now rewrite IH by lia. Qed.
Lemma sh_last p x d ws : 0 <= d <= Z.of_nat (length p) -> Z.of_nat (length p) < 4294967295 ->
  sh_step (p ++ [x], d :: ws) (length p) = Ok (sw p x (Z.to_nat d), ws).
Proof.
  intros Hd Hl. unfold sh_step. rewrite random_int_one by lia. cbn [bind].
  unfold vget. rewrite (nth_error_app2 p [x]), Nat.sub_diag by lia. cbn [nth_error bind]. unfold sw. destruct (Nat.eqb_spec (Z.to_nat d) (length p)) as [E|E].
  - rewrite E, (nth_error_app2 p [x]), Nat.sub_diag by lia. cbn [nth_error bind].
    assert (U : forall v, upd_nth (p ++ [v]) (length p) x = p ++ [x]). { clear. intros v. induction p; cbn; congruence. }
    rewrite vset_ok by (rewrite app_length; cbn; lia). cbn [bind]. rewrite U. rewrite vset_ok by (rewrite app_length; cbn; lia). cbn [bind]. now rewrite U.
  - rewrite (nth_error_app1 p [x]) by lia. rewrite (nth_error_nth' p 0) by lia. cbn [bind]. rewrite vset_ok by (rewrite app_length; cbn; lia). cbn [bind].
    assert (U : forall v, upd_nth (p ++ [x]) (length p) v = p ++ [v]). { clear. intros v. induction p; cbn; congruence. }
    rewrite U, vset_ok by (rewrite app_length; cbn; lia). cbn [bind]. rewrite upd_nth_app1 by lia. rewrite upd_nth_split by lia. now rewrite <- app_assoc.
Qed.
Lemma draws_snoc n ds d : draws n ds -> (1 <= n)%nat -> 0 <= d <= Z.of_nat n -> draws (S n) (ds ++ [d]).
Proof.
  intros [L H] Hn Hd. split; [rewrite app_length; cbn; lia|]. intros i Hi. destruct (Nat.eq_dec i (n - 1)) as [->|].
  - rewrite app_nth2, L, Nat.sub_diag by lia. cbn. lia.
  - rewrite app_nth1 by lia. apply H. lia.
Qed.
Lemma draws_unsnoc n ds : draws (S n) ds -> (1 <= n)%nat -> exists ds0 d, ds = ds0 ++ [d] /\ draws n ds0 /\ 0 <= d <= Z.of_nat n.
Proof.
  intros [L H] Hn. destruct (@exists_last _ ds) as (ds0 & d & ->); [intros ->; cbn in L; lia|]. rewrite app_length in L. cbn in L. exists ds0, d. split; auto. split.
  - split; [lia|]. intros i Hi. specialize (H i ltac:(lia)). rewrite app_nth1 in H by lia. lia.
  - specialize (H (n - 1)%nat ltac:(lia)). assert (En : (n - 1 = length ds0)%nat) by lia. rewrite En, app_nth2, Nat.sub_diag in H by lia. cbn [nth] in H. lia.
Qed.
Lemma shuffle_snoc p x ds d p' : p <> [] -> Z.of_nat (length p) < 4294967295 -> shuffle_ p ds = Ok (p', []) -> 0 <= d <= Z.of_nat (length p) ->
  shuffle_ (p ++ [x]) (ds ++ [d]) = Ok (sw p' x (Z.to_nat d), []).
Proof.
  intros Hp Hl E Hd. rewrite shuffle_unfold in E |- *. destruct (@sh_app _ _ _ _ _ [x] [d] E) as [L E'].
  assert (Lp : (1 <= length p)%nat) by (destruct p; [contradiction|cbn; lia]).
  rewrite app_length. cbn [length]. unfold rng in *. replace (length p + 1 - 1)%nat with ((length p - 1) + 1)%nat by lia. rewrite seq_app. cbn [seq].
  rewrite foldM_app, E'. cbn [bind app foldM]. replace (1 + (length p - 1))%nat with (length p) by lia. rewrite <- L, sh_last by (rewrite L; lia). reflexivity.
Qed.
Lemma skipn_nth' (l : list Z) d : (d < length l)%nat -> skipn d l = nth d l 0 :: skipn (S d) l.
Proof. revert d; induction l as [|a l IH]; intros [|d] H; cbn [length skipn nth] in *; try lia; auto. apply IH. lia. Qed.
Lemma sw_perm p x d : (d <= length p)%nat -> Permutation (p ++ [x]) (sw p x d).
Proof.
  intros Hd. unfold sw. destruct (Nat.eqb_spec d (length p)); [reflexivity|]. rewrite <- (firstn_skipn d p) at 1.
  rewrite (@skipn_nth' p d) by lia. rewrite <- app_assoc. apply Permutation_app_head. cbn [app].
  apply Permutation_trans with (x :: nth d p 0 :: skipn (S d) p); [|constructor; apply Permutation_cons_append].
  change (nth d p 0 :: skipn (S d) p ++ [x]) with ((nth d p 0 :: skipn (S d) p) ++ [x]). symmetry. apply Permutation_cons_append.
Qed.
Lemma shuffle_total p : forall ds, draws (length p) ds -> Z.of_nat (length p) <= 4294967295 -> exists p', shuffle_ p ds = Ok (p', []) /\ Permutation p p'.
Proof.
  induction p as [|x p IH] using rev_ind; intros ds Hd Hl.
  - destruct Hd as [L _]. destruct ds; [|discriminate]. exists []. split; [reflexivity|constructor].
  - rewrite app_length in Hd, Hl. cbn [length] in Hd, Hl. rewrite Nat.add_1_r in Hd. destruct p as [|a p].
    { destruct Hd as [L _]. destruct ds; [|discriminate]. exists [x]. split; reflexivity. }
    destruct (draws_unsnoc Hd) as (ds0 & d & -> & Hd0 & Hdd); [cbn; lia|]. destruct (IH ds0 Hd0) as (p' & E & P); [lia|].
    eexists. split; [apply shuffle_snoc; [discriminate|lia|exact E|exact Hdd]|].
    apply Permutation_trans with (p' ++ [x]); [now apply Permutation_app_tail|]. apply sw_perm. rewrite <- (Permutation_length P). lia.
Qed.
Lemma split_uniq (x : Z) a1 r1 a2 r2 : ~ In x a1 -> ~ In x a2 -> a1 ++ x :: r1 = a2 ++ x :: r2 -> a1 = a2 /\ r1 = r2.
Proof.
  revert a2; induction a1 as [|y a1 IH]; intros [|z a2] H1 H2 E; cbn in *.
  - injection E as ->. auto.
  - injection E as -> ->. exfalso; auto.
  - injection E as -> E. exfalso; auto.
  - injection E as -> E. destruct (IH a2) as [-> ->]; auto.
Qed.
Lemma sw_inj p1 p2 x d1 d2 : length p1 = length p2 -> (d1 <= length p1)%nat -> (d2 <= length p2)%nat -> ~ In x p1 -> ~ In x p2 ->
  sw p1 x d1 = sw p2 x d2 -> p1 = p2 /\ d1 = d2.
Proof.
  intros L H1 H2 N1 N2 E.
  assert (K : forall p d, (d <= length p)%nat -> sw p x d = firstn d p ++ x :: (if (d =? length p)%nat then [] else skipn (S d) p ++ [nth d p 0])).
  { intros p d Hd. unfold sw. destruct (Nat.eqb_spec d (length p)) as [->|]; [now rewrite firstn_all|auto]. }
  rewrite !K in E by auto.
  assert (F : forall p d, ~ In x p -> ~ In x (firstn d p)) by (intros p d Hn Hi; apply Hn; rewrite <- (firstn_skipn d p); apply in_or_app; auto).
  apply split_uniq in E as [Ea Er]; [|now apply F..].
  assert (Ed : d1 = d2). { pose proof (f_equal (@length Z) Ea) as Hl. rewrite !firstn_length in Hl. lia. } subst d2. split; auto.
  rewrite <- L in Er. destruct (Nat.eqb_spec d1 (length p1)) as [->|Hne].
  - rewrite firstn_all in Ea. rewrite L, firstn_all in Ea. auto.
  - apply app_inj_tail in Er as [Es En]. rewrite <- (firstn_skipn d1 p1), <- (firstn_skipn d1 p2). rewrite (@skipn_nth' p1 d1), (@skipn_nth' p2 d1) by lia. congruence.
Qed.
Lemma sw_onto q x u w : Permutation q (u ++ w) -> exists p' d, Permutation q p' /\ (d <= length p')%nat /\ sw p' x d = u ++ x :: w.
Proof.
  intros P. destruct w as [|b w] using rev_ind.
  - exists u, (length u). rewrite app_nil_r in P. split; auto. split; auto. unfold sw. now rewrite Nat.eqb_refl.
  - clear IHw. rename b into z. exists (u ++ z :: w), (length u). split.
    + rewrite P. apply Permutation_app_head. symmetry. apply Permutation_cons_append.
    + rewrite app_length. cbn [length]. split; [lia|]. unfold sw. rewrite app_length. cbn [length]. destruct (Nat.eqb_spec (length u) (length u + S (length w))); [lia|].
      rewrite firstn_app, firstn_all, Nat.sub_diag. cbn [firstn]. rewrite app_nil_r. f_equal. f_equal.
      rewrite app_nth2, Nat.sub_diag by lia. cbn [nth]. rewrite skipn_app. replace (S (length u) - length u)%nat with 1%nat by lia. rewrite skipn_all2 by lia. reflexivity.
Qed.
Lemma shuffle_onto p : forall p', Permutation p p' -> Z.of_nat (length p) <= 4294967295 -> exists ds, draws (length p) ds /\ shuffle_ p ds = Ok (p', []).
Proof.
  induction p as [|x p IH] using rev_ind; intros l' P Hl.
  - apply Permutation_nil in P. subst. exists []. split; [split; [reflexivity|cbn; lia]|reflexivity].
  - rewrite app_length in Hl |- *. cbn [length] in Hl |- *. destruct p as [|a p].
    { apply Permutation_length_1_inv in P. subst. exists []. split; [split; [reflexivity|cbn; lia]|reflexivity]. }
    assert (Hi : In x l') by (eapply Permutation_in; [exact P|apply in_or_app; right; now left]).
    apply in_split in Hi as (u & w & ->).
    assert (Puw : Permutation (a :: p) (u ++ w)). { apply Permutation_cons_app_inv with x. rewrite <- P. apply Permutation_cons_append. }
    destruct (@sw_onto (a :: p) x u w Puw) as (p' & d & Pp & Hd & Es). destruct (IH p' Pp) as (ds & Hds & E); [lia|].
    exists (ds ++ [Z.of_nat d]). rewrite (Permutation_length Pp) in Hds |- *. split.
    + rewrite Nat.add_1_r. apply draws_snoc; auto; [rewrite <- (Permutation_length Pp); cbn; lia|lia].
    + rewrite <- Es. rewrite <- (Nat2Z.id d) at 2. apply shuffle_snoc; auto; [discriminate|lia|rewrite (Permutation_length Pp); lia].
Qed.
Lemma shuffle_uniq p : NoDup p -> Z.of_nat (length p) <= 4294967295 -> forall p' ds ds', draws (length p) ds -> draws (length p) ds' ->
  shuffle_ p ds = Ok (p', []) -> shuffle_ p ds' = Ok (p', []) -> ds = ds'.
Proof.
  induction p as [|x p IH] using rev_ind; intros Nd Hl p' ds ds' H1 H2 E1 E2.
  - destruct H1 as [L1 _], H2 as [L2 _]. destruct ds; [|discriminate]. destruct ds'; [auto|discriminate].
  - rewrite app_length in *. cbn [length] in *. destruct p as [|a p].
    { destruct H1 as [L1 _], H2 as [L2 _]. destruct ds; [|discriminate]. destruct ds'; [auto|discriminate]. }
    rewrite Nat.add_1_r in *. apply NoDup_remove in Nd as [Nd Nx]. rewrite app_nil_r in Nd, Nx.
    destruct (draws_unsnoc H1) as (d1 & t1 & -> & D1 & T1); [cbn; lia|]. destruct (draws_unsnoc H2) as (d2 & t2 & -> & D2 & T2); [cbn; lia|].
    destruct (@shuffle_total _ _ D1) as (p1 & F1 & P1); [lia|]. destruct (@shuffle_total _ _ D2) as (p2 & F2 & P2); [lia|].
    rewrite (@shuffle_snoc (a :: p) x d1 t1 p1 ltac:(discriminate) ltac:(lia) F1 T1) in E1. rewrite (@shuffle_snoc (a :: p) x d2 t2 p2 ltac:(discriminate) ltac:(lia) F2 T2) in E2.
    injection E1 as E1. injection E2 as E2. pose proof (Permutation_length P1) as L1. pose proof (Permutation_length P2) as L2.
    destruct (@sw_inj p1 p2 x (Z.to_nat t1) (Z.to_nat t2)) as [Ep Et]; try lia; try congruence.
    + intros Hi. apply Nx. eapply Permutation_in; [symmetry; exact P1|exact Hi].
    + intros Hi. apply Nx. eapply Permutation_in; [symmetry; exact P2|exact Hi].
    + subst p2. rewrite (IH Nd ltac:(lia) _ _ _ D1 D2 F1 F2). f_equal. f_equal. lia.
Qed.
