(** * TableProofs: what the enumeration recursion adds up. *)
From Verif Require Import Base Spec BaseFacts Matrix Solve SolverSpec LinFacts.
Open Scope Z_scope.

(** ** sums of naturals *)
Fixpoint sumn {A} (f : A -> nat) (l : list A) : nat := match l with [] => 0%nat | a :: l => (f a + sumn f l)%nat end.
Lemma sumn_app {A} (f : A -> nat) l1 l2 : sumn f (l1 ++ l2) = (sumn f l1 + sumn f l2)%nat.
Proof. induction l1; cbn; lia. Qed.
Lemma sumn_ext {A} (f g : A -> nat) l : (forall x, In x l -> f x = g x) -> sumn f l = sumn g l.
Proof. induction l; cbn; intros H; auto. Qed.
Lemma sumn_zero {A} (f : A -> nat) l : (forall x, In x l -> f x = 0%nat) -> sumn f l = 0%nat.
Proof. induction l; cbn; intros H; auto. rewrite H, IHl; auto. Qed.
Lemma sumn_map {A B} (h : A -> B) (f : B -> nat) l : sumn f (map h l) = sumn (fun x => f (h x)) l.
Proof. induction l; cbn; congruence. Qed.
Lemma sumn_flat_map {A B} (h : A -> list B) (f : B -> nat) l : sumn f (flat_map h l) = sumn (fun a => sumn f (h a)) l.
Proof. induction l; cbn; auto. rewrite sumn_app. congruence. Qed.
Lemma sumn_add {A} (f g : A -> nat) l : sumn (fun x => f x + g x)%nat l = (sumn f l + sumn g l)%nat.
Proof. induction l; cbn; lia. Qed.
Lemma sumn_scale {A} c (f : A -> nat) l : sumn (fun x => c * f x)%nat l = (c * sumn f l)%nat.
Proof. induction l; cbn; lia. Qed.
Lemma sumn_perm {A} (f : A -> nat) l l' : Permutation l l' -> sumn f l = sumn f l'.
Proof. induction 1; cbn; lia. Qed.
Lemma nsum_acc l : forall a, fold_left Nat.add l a = (a + sumn (fun x => x) l)%nat.
Proof. induction l as [|x l IH]; intros a; cbn; [lia|]. rewrite IH. lia. Qed.
Lemma nsum_sumn l : nsum l = sumn (fun x => x) l.
Proof. unfold nsum. rewrite nsum_acc. lia. Qed.
Lemma sumn_swap {A B} (f : A -> B -> nat) l l' : sumn (fun a => sumn (f a) l') l = sumn (fun b => sumn (fun a => f a b) l) l'.
Proof. induction l; cbn; [now rewrite sumn_zero|]. rewrite IHl, sumn_add. reflexivity. Qed.
Lemma sumn_le {A} (f g : A -> nat) l : (forall x, In x l -> (f x <= g x)%nat) -> (sumn f l <= sumn g l)%nat.
Proof. induction l; cbn; intros H; [lia|]. pose proof (H a (or_introl eq_refl)). assert (sumn f l <= sumn g l)%nat by auto. lia. Qed.

(** ** binomial coefficients *)
Lemma C_query_ok n k : (n <= 8)%nat -> (k <= n)%nat -> C_query n k = Ok (binom n k).
Proof.
  intros Hn Hk. unfold C_query.
  do 9 (destruct n as [|n]; [do 9 (destruct k as [|k]; [reflexivity|]); lia|]). lia.
Qed.

Section Table.
Variables (A : list (list Z)) (groups : list (list nat)).
Let n := length groups.
Let m := length A.
Hypothesis HA : Forall (fun r => length r = n) A.
Hypothesis Hg : Forall (fun g => (1 <= length g <= 8)%nat) groups.

Definition len (k : nat) : nat := length (nth k groups []).
Definition on (i k : nat) : bool := 1 <=? nth k (nth i A []) 0.
Definition c2e : list (list nat) := map (fun k => filter (fun i => on i k) (seq 0 m)) (seq 0 n).
Definition e2c : list (list nat) := map (fun i => filter (on i) (seq 0 n)) (seq 0 m).

Lemma len_bound k : (k < n)%nat -> (1 <= len k <= 8)%nat.
Proof. intros Hk. rewrite Forall_forall in Hg. apply Hg, nth_In, Hk. Qed.
Lemma get_A i k : (i < m)%nat -> (k < n)%nat -> get A i k = Ok (nth k (nth i A []) 0).
Proof.
  intros Hi Hk. apply (@get_gok _ 0 m n A i k); [split; auto|split; auto].
Qed.

Lemma filter_prod_l (k : nat) a b (P : nat -> nat -> bool) :
  map fst (filter (fun '(i, j) => (j =? k)%nat && P i j) (list_prod a (seq 0 b))) = if (k <? b)%nat then filter (fun i => P i k) a else [].
Proof.
  induction a as [|i a IH]; cbn [list_prod filter map]; [destruct (k <? b)%nat; auto|].
  rewrite filter_app, map_app, IH. clear IH.
  assert (E : map fst (filter (fun '(i, j) => (j =? k)%nat && P i j) (map (fun y => (i, y)) (seq 0 b))) = if (k <? b)%nat && P i k then [i] else []).
  { induction b as [|b IHb]; auto. rewrite seq_S, map_app, filter_app, map_app, IHb. cbn [map filter Nat.add].
    destruct (Nat.eqb_spec b k) as [->|Hne].
    - destruct (Nat.ltb_spec k k); [lia|]. destruct (Nat.ltb_spec k (S k)); [|lia]. cbn [andb map fst app]. destruct (P i k); reflexivity.
    - cbn [andb map fst app filter]. rewrite app_nil_r. destruct (Nat.ltb_spec k b), (Nat.ltb_spec k (S b)); auto; lia. }
  rewrite E. destruct (k <? b)%nat; cbn; auto. destruct (P i k); reflexivity.
Qed.
Lemma filter_prod_r (k : nat) a b (P : nat -> nat -> bool) :
  map snd (filter (fun '(i, j) => (i =? k)%nat && P i j) (list_prod (seq 0 a) (seq 0 b))) = if (k <? a)%nat then filter (P k) (seq 0 b) else [].
Proof.
  assert (E : forall s, map snd (filter (fun '(i, j) => (i =? k)%nat && P i j) (list_prod s (seq 0 b))) = flat_map (fun i => if (i =? k)%nat then filter (P k) (seq 0 b) else []) s).
  { induction s as [|i s IH]; auto. cbn [list_prod flat_map]. rewrite filter_app, map_app, IH. f_equal. clear IH.
    induction (seq 0 b) as [|j l IHl]; [destruct (i =? k)%nat; auto|]. cbn [map filter]. destruct (Nat.eqb_spec i k) as [->|Hne]; cbn [andb]; auto.
    destruct (P k j); cbn; rewrite IHl; auto. }
  rewrite E. clear E. induction a as [|a IH]; auto. rewrite seq_S, flat_map_app, IH. cbn [flat_map Nat.add]. rewrite app_nil_r.
  destruct (Nat.eqb_spec a k) as [->|Hne].
  - destruct (Nat.ltb_spec k k); [lia|]. destruct (Nat.ltb_spec k (S k)); [auto|lia].
  - rewrite app_nil_r. destruct (Nat.ltb_spec k a), (Nat.ltb_spec k (S a)); auto; lia.
Qed.

Lemma cell_equation_map_ok : A <> [] -> cell_equation_map A = Ok (c2e, e2c).
Proof.
  intros HAne. unfold cell_equation_map.
  assert (E0 : match A with [] => Panic | r :: _ => Ok (length r) end = Ok n).
  { destruct A as [|r A0]; [contradiction|]. inversion HA; subst. now f_equal. }
  rewrite E0. cbn [bind]. fold m.
  match goal with |- foldM ?F ?l ?s = _ =>
    destruct (@foldM_inv _ _ F (fun done st => length (fst st) = n /\ length (snd st) = m /\
       (forall k, (k < n)%nat -> nth k (fst st) [] = map fst (filter (fun '(i, j) => (j =? k)%nat && on i j) done)) /\
       (forall k, (k < m)%nat -> nth k (snd st) [] = map snd (filter (fun '(i, j) => (i =? k)%nat && on i j) done))) l s)
      as ([c e] & E & L1 & L2 & H1 & H2) end.
  { cbn [fst snd]. rewrite !repeat_length. split; auto. split; auto. split; intros k Hk; now rewrite nth_repeat. }
  { intros done [i j] rest [c e] El (L1 & L2 & H1 & H2). cbn [fst snd] in *.
    assert (Hij : (i < m /\ j < n)%nat).
    { assert (In (i, j) (list_prod (seq 0 m) (seq 0 n))) by (rewrite El; apply in_app_iff; right; now left). apply in_prod_iff in H. rewrite !in_seq in H. lia. }
    rewrite get_A by tauto. cbn [bind]. fold (on i j). destruct (on i j) eqn:Eo.
    - rewrite (@vget_ok _ e i []) by lia. cbn [bind]. rewrite vset_ok by lia. cbn [bind].
      rewrite (@vget_ok _ c j []) by lia. cbn [bind]. rewrite vset_ok by lia. cbn [bind]. eexists. split; [reflexivity|]. cbn [fst snd].
      rewrite !length_upd_nth. split; auto. split; auto. split; intros k Hk; rewrite filter_app, map_app; cbn [filter]; rewrite Eo, andb_true_r.
      + destruct (Nat.eqb_spec j k) as [->|Hne]; [rewrite nth_upd_nth_eq by lia; now rewrite H1 by auto|].
        rewrite nth_upd_nth_neq by auto. cbn. now rewrite app_nil_r, H1.
      + destruct (Nat.eqb_spec i k) as [->|Hne]; [rewrite nth_upd_nth_eq by lia; now rewrite H2 by auto|].
        rewrite nth_upd_nth_neq by auto. cbn. now rewrite app_nil_r, H2.
    - eexists. split; [reflexivity|]. cbn [fst snd]. split; auto. split; auto.
      split; intros k Hk; rewrite filter_app, map_app; cbn [filter]; rewrite Eo, andb_false_r; cbn; rewrite app_nil_r; auto. }
  rewrite E. cbn [fst snd] in *. f_equal. f_equal.
  - apply (nth_ext _ _ [] []); [unfold c2e; now rewrite map_length, seq_length|]. intros k Hk. rewrite L1 in Hk.
    unfold c2e. rewrite H1, nth_map_seq, filter_prod_l by auto. destruct (Nat.ltb_spec k n); auto. lia.
  - apply (nth_ext _ _ [] []); [unfold e2c; now rewrite map_length, seq_length|]. intros k Hk. rewrite L2 in Hk.
    unfold e2c. rewrite H2, nth_map_seq, filter_prod_r by auto. destruct (Nat.ltb_spec k m); auto. lia.
Qed.

(** ** completions *)
Definition dec (idx u : nat) (rem : list Z) : list Z :=
  map (fun i => nth i rem 0 - (if on i idx then Z.of_nat u else 0)) (seq 0 m).
(** all ways to give columns idx, idx+1, ... a number of mines (at most their size) so that every
    equation is exactly used up *)
Fixpoint comps (todo idx : nat) (rem : list Z) : list (list nat) :=
  match todo with
  | O => if forallb (fun r => r =? 0) rem then [[]] else []
  | S todo => flat_map (fun u => map (cons u) (comps todo (S idx) (dec idx u rem))) (seq 0 (S (len idx)))
  end.
Fixpoint W (idx : nat) (us : list nat) : nat :=
  match us with [] => 1%nat | u :: us => (binom (len idx) u * W (S idx) us)%nat end.

(** what columns from idx on can still contribute to equation i *)
Definition rest (i idx : nat) : Z := sumz (fun j => if on i j then Z.of_nat (len j) else 0) (seq idx (n - idx)).
Lemma rest_S i idx : (idx < n)%nat -> rest i idx = (if on i idx then Z.of_nat (len idx) else 0) + rest i (S idx).
Proof. intros H. unfold rest. replace (n - idx)%nat with (S (n - S idx)) by lia. reflexivity. Qed.
Lemma length_dec idx u rem : length (dec idx u rem) = m.
Proof. unfold dec. now rewrite map_length, seq_length. Qed.
Lemma nth_dec idx u rem i : (i < m)%nat -> nth i (dec idx u rem) 0 = nth i rem 0 - (if on i idx then Z.of_nat u else 0).
Proof. intros H. unfold dec. now rewrite nth_map_seq. Qed.

Lemma comps_bounds todo : forall idx rem us, (idx + todo = n)%nat -> length rem = m -> In us (comps todo idx rem) ->
  length us = todo /\ (forall j, (j < todo)%nat -> (nth j us 0 <= len (idx + j))%nat) /\
  forall i, (i < m)%nat -> 0 <= nth i rem 0 <= rest i idx.
Proof.
  induction todo as [|todo IH]; intros idx rem us Hn Hl Hus; cbn [comps] in Hus.
  - destruct (forallb (fun r => r =? 0) rem) eqn:E; [|destruct Hus]. destruct Hus as [<-|[]]. split; auto. split; [lia|].
    intros i Hi. rewrite forallb_forall in E. specialize (E (nth i rem 0) ltac:(apply nth_In; lia)). apply Z.eqb_eq in E. rewrite E.
    unfold rest. replace (n - idx)%nat with 0%nat by lia. cbn. lia.
  - apply in_flat_map in Hus as (u & Hu & Hus). apply in_map_iff in Hus as (us' & <- & Hus'). apply in_seq in Hu.
    destruct (IH (S idx) (dec idx u rem) us') as (I1 & I2 & I3); auto; [lia|apply length_dec|]. split; [cbn; lia|]. split.
    + intros [|j] Hj; cbn [nth]; [rewrite Nat.add_0_r; lia|]. specialize (I2 j ltac:(lia)). now rewrite Nat.add_succ_r.
    + intros i Hi. specialize (I3 i Hi). rewrite nth_dec in I3 by auto. rewrite rest_S by lia. destruct (on i idx); lia.
Qed.

(** ** the limits *)
Lemma limits_ok idx rem : (idx < n)%nat -> length rem = m -> (forall i, (i < m)%nat -> 0 <= nth i rem 0) ->
  exists lo up, limits A rem groups c2e e2c idx = Ok (lo, up) /\ (up <= len idx)%nat /\
    forall u, (lo <= u <= up)%nat <-> (u <= len idx)%nat /\ forall i, (i < m)%nat -> on i idx = true ->
        Z.of_nat u <= nth i rem 0 /\ nth i rem 0 - rest i (S idx) <= Z.of_nat u.
Proof.
  intros Hidx Hl Hpos. unfold limits. rewrite (@vget_ok _ groups idx []) by auto. cbn [bind]. fold (len idx).
  rewrite (@vget_ok _ c2e idx []) by (unfold c2e; rewrite map_length, seq_length; auto). cbn [bind].
  unfold c2e. rewrite nth_map_seq by auto.
  match goal with |- context [foldM ?F ?l ?s] =>
    destruct (@foldM_inv _ _ F (fun done st => (snd st <= len idx)%nat /\ forall u, (fst st <= u <= snd st)%nat <-> (u <= len idx)%nat /\
       forall i, In i done -> Z.of_nat u <= nth i rem 0 /\ nth i rem 0 - rest i (S idx) <= Z.of_nat u) l s)
      as ([lo up] & E & H0 & H1) end.
  { cbn. split; auto. intros u. split; [intros; split; [lia|intros i []]|intros [? _]; lia]. }
  { intros done i rst [lo up] El (Hup & H1). cbn [fst snd] in *.
    assert (Hi : (i < m)%nat /\ on i idx = true).
    { assert (In i (filter (fun i => on i idx) (seq 0 m))) by (rewrite El; apply in_app_iff; right; now left).
      apply filter_In in H as [H Ho]. apply in_seq in H. split; auto. lia. }
    destruct Hi as [Hi Ho]. rewrite get_A by auto. cbn [bind]. unfold on in Ho.
    destruct (Z.eqb_spec (nth idx (nth i A []) 0) 0); [lia|].
    rewrite (@vget_ok _ rem i 0) by lia. cbn [bind].
    rewrite (@vget_ok _ e2c i []) by (unfold e2c; rewrite map_length, seq_length; auto). cbn [bind].
    unfold e2c. rewrite nth_map_seq by auto.
    match goal with |- context [foldM ?F ?l ?s] => 
      assert (El2 : foldM F l s = Ok (nth i rem 0 - rest i (S idx))) end.
    { assert (G : forall s r0, (forall j, In j s -> (j < n)%nat) -> foldM (fun lo j => if (idx <? j)%nat then let* gj := vget groups j in Ok (lo - Z.of_nat (length gj)) else Ok lo)
               (filter (on i) s) r0 = Ok (r0 - sumz (fun j => if (idx <? j)%nat && on i j then Z.of_nat (len j) else 0) s)).
      { induction s as [|j s IHs]; intros r0 Hs; cbn [filter foldM sumz]; [f_equal; lia|].
        destruct (on i j) eqn:Eo; cbn [foldM].
        - destruct (Nat.ltb_spec idx j) as [Hlt|Hge]; cbn [andb].
          + rewrite (@vget_ok _ groups j []) by (apply Hs; now left). cbn [bind]. rewrite IHs by (intros; apply Hs; now right). fold (len j). f_equal. lia.
          + cbn [bind]. rewrite IHs by (intros; apply Hs; now right). f_equal; try lia.
        - rewrite andb_false_r. rewrite IHs by (intros; apply Hs; now right). f_equal. }
      rewrite G by (intros j Hj; apply in_seq in Hj; lia). f_equal. f_equal. unfold rest.
      replace n with (S idx + (n - S idx))%nat at 1 by lia. rewrite seq_app, sumz_app. cbn [Nat.add].
      rewrite sumz_zero. 2:{ intros j Hj. apply in_seq in Hj. destruct (Nat.ltb_spec idx j); [lia|reflexivity]. }
      rewrite Z.add_0_l. apply sumz_ext. intros j Hj. apply in_seq in Hj. destruct (Nat.ltb_spec idx j); [reflexivity|lia]. }
    rewrite El2. cbn [bind]. clear El2. specialize (Hpos i Hi).
    set (r := nth i rem 0) in *. set (R := rest i (S idx)).
    assert (Eup : (if Z.min r (Z.of_nat (len idx)) <? Z.of_nat up then if Z.min r (Z.of_nat (len idx)) <? 0 then Panic else Ok (Z.to_nat (Z.min r (Z.of_nat (len idx)))) else Ok up)
       = Ok (Nat.min up (Z.to_nat r))).
    { destruct (Z.ltb_spec (Z.min r (Z.of_nat (len idx))) (Z.of_nat up)); [|f_equal; lia].
      destruct (Z.ltb_spec (Z.min r (Z.of_nat (len idx))) 0); [lia|]. f_equal. lia. }
    rewrite Eup. cbn [bind]. eexists. split; [reflexivity|]. cbn [fst snd]. split; [lia|]. intros u.
    assert (Elo : forall u, ((if (Z.of_nat lo <? r - R)%Z then Z.to_nat (r - R) else lo) <= u)%nat <-> (lo <= u)%nat /\ r - R <= Z.of_nat u).
    { intros w. destruct (Z.ltb_spec (Z.of_nat lo) (r - R)); lia. }
    split.
    - intros [U1 U2]. apply Elo in U1. destruct (proj1 (H1 u)) as [V1 V2]; [lia|]. split; auto.
      intros i0 Hi0. apply in_app_iff in Hi0 as [Hi0|[<-|[]]]; auto. fold r R. lia.
    - intros [U1 U2]. assert (lo <= u <= up)%nat. { apply H1. split; auto. intros i0 Hi0. apply U2, in_app_iff; auto. }
      destruct (U2 i) as [U3 U4]; [apply in_app_iff; right; now left|]. fold r R in U3, U4. split; [apply Elo; lia|lia]. }
  rewrite E. exists lo, up. split; auto. split; auto. intros u. cbn [fst snd] in *. rewrite H1. split; intros [U1 U2]; split; auto.
  - intros i Hi Ho. apply U2, filter_In. split; auto. apply in_seq. lia.
  - intros i Hi. apply filter_In in Hi as [Hi Ho]. apply in_seq in Hi. apply U2; auto; lia.
Qed.

(** ** the table *)
Definition total : nat := sumn (@length nat) groups.
Definition tab (c : nat -> nat) (f : nat -> nat -> nat) : list trow := map (fun k => (k, c k, map (f k) (seq 0 n))) (seq 0 (S total)).

Lemma upd_map {X} (f g : nat -> X) N k : (k < N)%nat -> (forall j, (j < N)%nat -> j <> k -> g j = f j) ->
  upd_nth (map f (seq 0 N)) k (g k) = map g (seq 0 N).
Proof.
  intros Hk H. apply (nth_ext _ _ (g k) (g k)); [now rewrite length_upd_nth, !map_length|]. intros j Hj. rewrite length_upd_nth, map_length, seq_length in Hj.
  destruct (Nat.eq_dec k j) as [->|Hne].
  - rewrite nth_upd_nth_eq by (rewrite map_length, seq_length; auto). now rewrite nth_map_seq.
  - rewrite nth_upd_nth_neq by auto. rewrite !nth_map_seq by auto. symmetry. apply H; auto.
Qed.

Lemma record_ok c f amount mv : length mv = n -> (forall j, (j < n)%nat -> (nth j mv 0 <= len j)%nat) ->
  exists c' f', record_solution groups amount mv (tab c f) = Ok (tab c' f') /\
    (forall k, c' k = c k + if sumn (fun x => x) mv =? k then amount else 0)%nat /\
    (forall k j, (j < n)%nat -> f' k j = f k j + if sumn (fun x => x) mv =? k then amount * nth j mv 0 / len j else 0)%nat.
Proof.
  intros Hl Hb. unfold record_solution. rewrite nsum_sumn. set (t := sumn (fun x => x) mv).
  assert (Ht : (t <= total)%nat).
  { unfold t, total. clear - Hl Hb. revert Hb Hl. unfold len. subst n. revert mv. induction groups as [|g l IH]; intros [|x mv] Hb Hl; cbn in *; try lia.
    specialize (IH mv). pose proof (Hb 0%nat ltac:(lia)) as H0. cbn in H0. 
    assert (sumn (fun x => x) mv <= sumn (@length nat) l)%nat. { apply IH; [|lia]. intros j Hj. apply (Hb (S j)). lia. } lia. }
  unfold tab at 1. rewrite map_length, seq_length. destruct (Nat.leb_spec (S total) t); [lia|].
  rewrite (@vget_ok _ (tab c f) t (0%nat, 0%nat, [])) by (unfold tab; rewrite map_length, seq_length; auto). cbn [bind].
  unfold tab at 1. rewrite (@nth_map_seq _ _ (S total) t) by auto.
  match goal with |- context [foldM ?F ?l ?s] =>
    assert (E : foldM F l s = Ok (map (fun j => f t j + amount * nth j mv 0 / len j)%nat (seq 0 n))) end.
  { rewrite Hl. assert (G : forall q, (q <= n)%nat -> foldM (fun cells idn =>
                    let* n := vget mv idn in
                    let* old := vget cells idn in
                    let* grp := vget groups idn in
                    let* q := (match length grp with O => Panic | S l => Ok (amount * n / S l)%nat end) in
                    vset cells idn (old + q)%nat) (seq 0 q) (map (f t) (seq 0 n)) = Ok (map (fun j => if (j <? q)%nat then f t j + amount * nth j mv 0 / len j else f t j)%nat (seq 0 n))).
    { induction q as [|q IH]; intros Hq; [reflexivity|]. rewrite seq_S, foldM_app, IH by lia. cbn [bind foldM Nat.add].
      rewrite (@vget_ok _ mv q 0%nat) by lia. cbn [bind]. rewrite (@vget_ok _ _ q 0%nat) by (rewrite map_length, seq_length; lia). cbn [bind].
      rewrite (@vget_ok _ groups q []) by (fold n; lia). cbn [bind]. fold (len q). pose proof (@len_bound q ltac:(lia)).
      destruct (len q) as [|l] eqn:El; [lia|]. cbn [bind]. rewrite vset_ok by (rewrite map_length, seq_length; lia).
      cbn [bind]. f_equal. rewrite nth_map_seq by lia. destruct (Nat.ltb_spec q q); [lia|].
      set (g := fun j => if (j <? S q)%nat then (f t j + amount * nth j mv 0 / len j)%nat else f t j).
      assert (Eg : (f t q + amount * nth q mv 0 / S l = g q)%nat). { unfold g. destruct (Nat.ltb_spec q (S q)); [now rewrite El|lia]. }
      rewrite Eg. apply upd_map; [lia|]. intros j Hj Hne. unfold g. destruct (Nat.ltb_spec j (S q)), (Nat.ltb_spec j q); auto; lia. }
    rewrite G by lia. f_equal. apply map_ext_in. intros j Hj. apply in_seq in Hj. destruct (Nat.ltb_spec j n); [auto|lia]. }
  rewrite E. cbn [bind]. clear E.
  exists (fun k => c k + if t =? k then amount else 0)%nat, (fun k j => f k j + if t =? k then amount * nth j mv 0 / len j else 0)%nat.
  split; [|split; auto].
  rewrite vset_ok by (unfold tab; rewrite map_length, seq_length; lia). f_equal. unfold tab.
  set (g := fun k => (k, (c k + (if t =? k then amount else 0))%nat, map (fun j => (f k j + (if t =? k then amount * nth j mv 0 / len j else 0))%nat) (seq 0 n))).
  assert (Eg : (t, (c t + amount)%nat, map (fun j => (f t j + amount * nth j mv 0 / len j)%nat) (seq 0 n)) = g t).
  { unfold g. now rewrite Nat.eqb_refl. }
  rewrite Eg. apply upd_map; [lia|]. intros j Hj Hne. unfold g. destruct (Nat.eqb_spec t j); [congruence|]. rewrite Nat.add_0_r. f_equal.
  apply map_ext. intros k. lia.
Qed.

Lemma dec_ok idx u rem : (idx < n)%nat -> length rem = m ->
  foldM (fun rem tt => let* r := vget rem tt in vset rem tt (r - Z.of_nat u)) (nth idx c2e []) rem = Ok (dec idx u rem).
Proof.
  intros Hi Hl. unfold c2e. rewrite nth_map_seq by auto.
  assert (G : forall q, (q <= m)%nat -> foldM (fun rem tt => let* r := vget rem tt in vset rem tt (r - Z.of_nat u)) (filter (fun i => on i idx) (seq 0 q)) rem =
     Ok (map (fun i => nth i rem 0 - if (i <? q)%nat && on i idx then Z.of_nat u else 0) (seq 0 m))).
  { induction q as [|q IH]; intros Hq.
    - cbn [seq filter foldM]. f_equal. apply (nth_ext _ _ 0 0); [now rewrite map_length, seq_length|]. intros i Hi'. rewrite nth_map_seq by lia. cbn. lia.
    - rewrite seq_S, filter_app, foldM_app, IH by lia. cbn [bind filter foldM Nat.add]. destruct (on q idx) eqn:Eo; cbn [foldM].
      + rewrite (@vget_ok _ _ q 0) by (rewrite map_length, seq_length; lia). cbn [bind]. rewrite nth_map_seq by lia.
        destruct (Nat.ltb_spec q q); [lia|]. cbn [andb]. rewrite vset_ok by (rewrite map_length, seq_length; lia). cbn [bind]. f_equal.
        set (g := fun i => nth i rem 0 - (if (i <? S q)%nat && on i idx then Z.of_nat u else 0)).
        assert (Eg : nth q rem 0 - 0 - Z.of_nat u = g q). { unfold g. destruct (Nat.ltb_spec q (S q)); [|lia]. rewrite Eo. cbn [andb]. lia. }
        rewrite Eg. apply upd_map; [lia|]. intros j Hj Hne. unfold g. destruct (Nat.ltb_spec j (S q)), (Nat.ltb_spec j q); auto; lia.
      + f_equal. apply map_ext_in. intros i Hi'. destruct (Nat.ltb_spec i (S q)), (Nat.ltb_spec i q); auto; try lia.
        assert (i = q) by lia. subst. rewrite Eo. reflexivity. }
  rewrite G by lia. f_equal. unfold dec. apply map_ext_in. intros i Hi'. apply in_seq in Hi'. destruct (Nat.ltb_spec i m); [reflexivity|lia].
Qed.

Lemma upd_snoc {X} (a : list X) z t v : upd_nth (a ++ z :: t) (length a) v = a ++ v :: t.
Proof. induction a; cbn; congruence. Qed.

(** contribution of a family of completions to lines and cells *)
Definition cadd (amount idx k : nat) (pre : list nat) (us : list nat) : nat :=
  if (sumn (fun x => x) (pre ++ us) =? k)%nat then (amount * W idx us)%nat else 0%nat.
Definition fadd (amount idx k j : nat) (pre : list nat) (us : list nat) : nat :=
  if (sumn (fun x => x) (pre ++ us) =? k)%nat then (amount * W idx us * nth j (pre ++ us) 0 / len j)%nat else 0%nat.

Lemma table_step_ok todo : forall idx amount rem pre c f,
  (idx + todo = n)%nat -> length pre = idx -> length rem = m ->
  (forall j, (j < idx)%nat -> (nth j pre 0 <= len j)%nat) ->
  (forall i, (i < m)%nat -> 0 <= nth i rem 0 /\ (rest i idx = 0 -> nth i rem 0 = 0)) ->
  exists c' f', table_step todo A groups c2e e2c idx amount rem (pre ++ repeat 0%nat todo) (tab c f) = Ok (tab c' f') /\
    (forall k, c' k = c k + sumn (cadd amount idx k pre) (comps todo idx rem))%nat /\
    (forall k j, (j < n)%nat -> f' k j = f k j + sumn (fadd amount idx k j pre) (comps todo idx rem))%nat.
Proof.
  induction todo as [|todo IH]; intros idx amount rem pre c f Hn Hp Hl Hb Hr; cbn [table_step].
  - cbn [repeat]. rewrite app_nil_r. 
    destruct (@record_ok c f amount pre) as (c' & f' & E & H1 & H2); [lia|intros j Hj; apply Hb; lia|].
    assert (Hz : forallb (fun r => r =? 0) rem = true).
    { apply forallb_forall. intros r Hrr. apply (In_nth _ _ 0) in Hrr as (i & Hi & <-). apply Z.eqb_eq, (Hr i); [lia|].
      unfold rest. replace (n - idx)%nat with 0%nat by lia. reflexivity. }
    exists c', f'. split; auto. cbn [comps]. rewrite Hz. cbn [sumn]. split.
    + intros k. rewrite H1. unfold cadd. rewrite app_nil_r. cbn [W]. rewrite Nat.mul_1_r. lia.
    + intros k j Hj. rewrite H2 by auto. unfold fadd. rewrite app_nil_r. cbn [W]. rewrite Nat.mul_1_r. lia.
  - assert (Hidx : (idx < n)%nat) by lia.
    destruct (@limits_ok idx rem Hidx Hl) as (lo & up & E & Hup & Hlim); [intros i Hi; apply Hr; auto|].
    rewrite E. cbn [bind]. clear E. rewrite (@vget_ok _ c2e idx []) by (unfold c2e; rewrite map_length, seq_length; auto). cbn [bind].
    rewrite (@vget_ok _ groups idx []) by auto. cbn [bind]. fold (len idx).
    match goal with |- context [foldM ?F _ _] => set (G := F) end.
    assert (HG : forall us0 c f, (forall u, In u us0 -> (lo <= u <= up)%nat) -> exists c' f', foldM G us0 (tab c f) = Ok (tab c' f') /\
        (forall k, c' k = c k + sumn (cadd amount idx k pre) (flat_map (fun u => map (cons u) (comps todo (S idx) (dec idx u rem))) us0))%nat /\
        (forall k j, (j < n)%nat -> f' k j = f k j + sumn (fadd amount idx k j pre) (flat_map (fun u => map (cons u) (comps todo (S idx) (dec idx u rem))) us0))%nat).
    { induction us0 as [|u us0 IHu]; intros c0 f0 Hus; cbn [foldM flat_map].
      - exists c0, f0. split; auto. 
      - assert (Hu : (lo <= u <= up)%nat) by (apply Hus; now left). pose proof (proj1 (Hlim u) Hu) as [U1 U2].
        unfold G at 1. cbn [repeat]. rewrite vset_ok by (rewrite app_length; cbn [length]; lia). cbn [bind]. replace (upd_nth (pre ++ 0%nat :: repeat 0%nat todo) idx u) with (pre ++ u :: repeat 0%nat todo) by (rewrite <- Hp; symmetry; apply upd_snoc).
        rewrite dec_ok by auto. cbn [bind]. rewrite C_query_ok by (pose proof (len_bound Hidx); lia). cbn [bind].
        replace (pre ++ u :: repeat 0%nat todo) with ((pre ++ [u]) ++ repeat 0%nat todo) by (now rewrite <- app_assoc).
        destruct (IH (S idx) (amount * binom (len idx) u)%nat (dec idx u rem) (pre ++ [u]) c0 f0) as (c1 & f1 & E1 & A1 & A2).
        + lia. + rewrite app_length. cbn. lia. + apply length_dec.
        + intros j Hj. destruct (Nat.eq_dec j idx) as [->|Hne].
          * rewrite app_nth2 by lia. rewrite Hp, Nat.sub_diag. cbn [nth]. lia.
          * rewrite app_nth1 by lia. apply Hb. lia.
        + intros i Hi. rewrite nth_dec by auto. destruct (Hr i Hi) as [R1 R2]. rewrite rest_S in R2 by auto.
          destruct (on i idx) eqn:Eo.
          * destruct (U2 i Hi Eo). split; [lia|]. intros Hz. rewrite Hz in *. lia.
          * split; [lia|]. intros Hz. rewrite Z.sub_0_r. apply R2. lia.
        + rewrite E1. cbn [bind]. destruct (IHu c1 f1) as (c2 & f2 & E2 & B1 & B2); [intros; apply Hus; now right|].
          exists c2, f2. split; auto. split.
          * intros k. rewrite B1, A1, sumn_app, sumn_map. rewrite <- Nat.add_assoc. do 2 f_equal. apply sumn_ext. intros us _. unfold cadd. cbn [W].
            rewrite <- app_assoc. cbn [app]. destruct (_ =? k)%nat; auto. now rewrite Nat.mul_assoc.
          * intros k j Hj. rewrite B2, A2, sumn_app, sumn_map by auto. rewrite <- Nat.add_assoc. do 2 f_equal. apply sumn_ext. intros us _. unfold fadd. cbn [W].
            rewrite <- app_assoc. cbn [app]. destruct (_ =? k)%nat; auto. now rewrite Nat.mul_assoc. }
    destruct (HG (rng lo (S up)) c f) as (c' & f' & E & H1 & H2). { intros u Hu. apply in_rng in Hu. lia. }
    exists c', f'. split; auto.
    assert (Hflat : flat_map (fun u => map (cons u) (comps todo (S idx) (dec idx u rem))) (seq 0 (S (len idx))) =
                    flat_map (fun u => map (cons u) (comps todo (S idx) (dec idx u rem))) (rng lo (S up))).
    { assert (Hnone : forall u, (u <= len idx)%nat -> ~ (lo <= u <= up)%nat -> comps todo (S idx) (dec idx u rem) = []).
      { intros u Hu Hout. destruct (comps todo (S idx) (dec idx u rem)) as [|us l] eqn:Ec; auto. exfalso. apply Hout, Hlim. split; auto.
        intros i Hi Ho. destruct (@comps_bounds todo (S idx) (dec idx u rem) us) as (_ & _ & B); [lia|apply length_dec|rewrite Ec; now left|].
        specialize (B i Hi). rewrite nth_dec, Ho in B by auto. lia. }
      assert (Hempty : forall s, (forall u, In u s -> (u <= len idx)%nat /\ ~ (lo <= u <= up)%nat) -> flat_map (fun u => map (cons u) (comps todo (S idx) (dec idx u rem))) s = []).
      { induction s as [|u s IHs]; intros Hs; auto. cbn [flat_map]. destruct (Hs u (or_introl eq_refl)). rewrite Hnone by auto. cbn. apply IHs. intros; apply Hs; now right. }
      destruct (Nat.le_gt_cases lo up) as [Hle|Hgt].
      - replace (S (len idx)) with (lo + ((S up - lo) + (len idx - up)))%nat by lia. rewrite !seq_app, !flat_map_app. cbn [Nat.add].
        rewrite (Hempty (seq 0 lo)) by (intros u Hu; apply in_seq in Hu; lia).
        rewrite (Hempty (seq (lo + (S up - lo)) _)) by (intros u Hu; apply in_seq in Hu; lia). rewrite app_nil_r. reflexivity.
      - unfold rng. replace (S up - lo)%nat with 0%nat by lia. apply Hempty. intros u Hu. apply in_seq in Hu. lia. }
    cbn [comps]. rewrite Hflat. auto.
Qed.
End Table.
