(** * PossProofs: sums over choices of one line per table. *)
From Verif Require Import Base Spec BaseFacts LayMine Matrix Solve SolverSpec LinFacts SolveProofs TableProofs EnumProofs EnumBlock Possibility.
Open Scope nat_scope.

(** the product and the sum of the chosen entries *)
Fixpoint psel (fs : list (list nat)) (s : list nat) : nat :=
  match fs, s with f :: fs, a :: s => nth a f 0 * psel fs s | _, _ => 1 end.
Fixpoint tsel (ks : list (list nat)) (s : list nat) : nat :=
  match ks, s with k :: ks, a :: s => nth a k 0 + tsel ks s | _, _ => 0 end.

(** [ways I rows phi]: sum over all choices of one row (k, f) per table of the product of the f's,
    with the rest [I] applied to [phi] shifted by the sum of the k's *)
Fixpoint ways (I : (nat -> nat) -> nat) (rows : list (list (nat * nat))) (phi : nat -> nat) : nat :=
  match rows with
  | [] => I phi
  | r :: rows => sumn (fun kf => snd kf * ways I rows (fun t => phi (fst kf + t))) r
  end.

Definition indices (l : list nat) : list nat := seq 0 (length l).
Lemma sumn_nth {X} (h : X -> nat) (l : list X) d : sumn h l = sumn (fun a => h (nth a l d)) (seq 0 (length l)).
Proof.
  induction l as [|x l IH]; auto. cbn [length]. rewrite <- cons_seq. cbn [sumn nth]. rewrite IH, sumn_seq_shift. reflexivity.
Qed.
Lemma sumn_scale_r {A} c (f : A -> nat) l : sumn (fun x => f x * c) l = sumn f l * c.
Proof. rewrite (@sumn_ext _ _ (fun x => c * f x)) by (intros; lia). rewrite sumn_scale. lia. Qed.
Lemma sumn_cart_cons l ls (H : list nat -> nat) : sumn H (cart (l :: ls)) = sumn (fun a => sumn (fun s => H (a :: s)) (cart ls)) l.
Proof. cbn [cart]. rewrite sumn_flat_map. apply sumn_ext. intros a _. apply sumn_map. Qed.
Lemma cart_ways rows : forall phi, sumn (fun s => psel (map (map snd) rows) s * phi (tsel (map (map fst) rows) s)) (cart (map indices (map (map fst) rows)))
  = ways (fun phi => phi 0) rows phi.
Proof.
  induction rows as [|r rows IH]; intros phi.
  - cbn. lia.
  - cbn [map ways]. rewrite sumn_cart_cons. rewrite (sumn_nth _ r (0, 0)). change (indices (map fst r)) with (seq 0 (length (map fst r))). rewrite map_length. apply sumn_ext. intros a Ha. apply in_seq in Ha.
    rewrite <- IH, <- sumn_scale. apply sumn_ext. intros s _. cbn [psel tsel].
    rewrite (@nth_map_lt _ _ snd r a 0 (0, 0)), (@nth_map_lt _ _ fst r a 0 (0, 0)) by lia. lia.
Qed.
Lemma ways_app I rows last : forall phi, ways I (rows ++ last) phi = ways (fun phi => ways I last phi) rows phi.
Proof. induction rows as [|r rows IH]; intros phi; cbn [app ways]; auto. apply sumn_ext. intros kf _. now rewrite IH. Qed.
Lemma ways_ext I rows : forall phi psi, (forall phi psi, (forall t, phi t = psi t) -> I phi = I psi) -> (forall t, phi t = psi t) -> ways I rows phi = ways I rows psi.
Proof.
  induction rows as [|r rows IH]; intros phi psi HI H; cbn [ways]; auto. apply sumn_ext. intros kf _. f_equal. apply IH; auto.
Qed.
(** only totals between the smallest and the largest matter *)
Lemma ways_inner I J rows : forall (bounds : list (nat * nat)) phi,
  Forall2 (fun r b => forall kf, In kf r -> fst b <= fst kf <= snd b) rows bounds ->
  (forall t, nsum (map fst bounds) <= t <= nsum (map snd bounds) -> I (fun u => phi (t + u)) = J (fun u => phi (t + u))) ->
  (forall phi psi, (forall t, phi t = psi t) -> I phi = I psi) -> (forall phi psi, (forall t, phi t = psi t) -> J phi = J psi) ->
  ways I rows phi = ways J rows phi.
Proof.
  induction rows as [|r rows IH]; intros bounds phi F H HI HJ; inversion F as [|? b ? bounds' Hb F']; subst.
  - cbn [ways]. rewrite (HI phi (fun u => phi (0 + u))), (HJ phi (fun u => phi (0 + u))) by reflexivity. apply H. cbn. lia.
  - cbn [ways]. apply sumn_ext. intros kf Hk. f_equal. apply (IH bounds'); auto. intros t Ht.
    specialize (Hb kf Hk). specialize (H (fst kf + t)). cbn [map] in H. rewrite !nsum_sumn in H, Ht. cbn [sumn] in H.
    rewrite (HI _ (fun u => phi (fst kf + t + u))), (HJ _ (fun u => phi (fst kf + t + u))) by (intros; f_equal; lia). apply H. lia.
Qed.

(** ** choices *)
Lemma in_cart ls : forall s, In s (cart (map indices ls)) <-> length s = length ls /\ forall i, i < length ls -> nth i s 0 < length (nth i ls []).
Proof.
  induction ls as [|l ls IH]; intros s; cbn [map cart].
  - split.
    + intros [<-|[]]. split; auto. intros i Hi. cbn in Hi. lia.
    + intros [H _]. destruct s; [now left|discriminate H].
  - rewrite in_flat_map. split.
    + intros (a & Ha & Hs). apply in_map_iff in Hs as (s' & <- & Hs'). apply IH in Hs' as [L H]. unfold indices in Ha. apply in_seq in Ha.
      cbn [length]. split; [lia|]. intros [|i] Hi; cbn [nth]; [lia|]. apply H. lia.
    + intros [L H]. destruct s as [|a s]; [discriminate L|]. exists a. split.
      * apply in_seq. specialize (H 0). cbn in H. lia.
      * apply in_map, IH. cbn in L. split; [lia|]. intros i Hi. apply (H (S i)). cbn. lia.
Qed.
Lemma foldM_filter {A} (f : A -> R nat) (g : A -> nat) m l : (forall a, In a l -> f a = Ok (g a)) -> forall acc,
  foldM (fun acc s => let* t := f s in Ok (if t =? m then acc ++ [s] else acc)) l acc = Ok (acc ++ filter (fun s => g s =? m) l).
Proof.
  induction l as [|a l IH]; intros H acc; cbn [foldM filter]; [now rewrite app_nil_r|]. rewrite H by now left. cbn [bind].
  rewrite IH by (intros; apply H; now right). f_equal. destruct (g a =? m); [now rewrite <- app_assoc|reflexivity].
Qed.
Lemma choice_total_ok kss : forall s t0, length s = length kss -> (forall i, i < length kss -> nth i s 0 < length (nth i kss [])) ->
  foldM (fun t '(l, a) => let* k := vget l a in Ok (t + k)) (combine kss s) t0 = Ok (t0 + tsel kss s).
Proof.
  induction kss as [|l kss IH]; intros s t0 L H.
  - destruct s; [|discriminate L]. cbn. now rewrite Nat.add_0_r.
  - destruct s as [|a s]; [discriminate L|]. cbn [combine foldM tsel]. rewrite (vget_ok 0) by (apply (H 0); cbn; lia). cbn [bind].
    rewrite IH; [f_equal; lia|cbn in L; lia|]. intros i Hi. apply (H (S i)). cbn. lia.
Qed.

Lemma combine_app_l {A B} (l1 l2 : list A) (m : list B) : length m = length l1 -> combine (l1 ++ l2) m = combine l1 m.
Proof. revert m. induction l1 as [|a l1 IH]; intros [|b m] H; cbn in *; try lia; [now destruct l2|]. now rewrite IH by lia. Qed.

(** the columns with column [skip] replaced by ones *)
Definition cols (tabs : list (list trow)) : list (list nat) := map t_count tabs.
Definition ones (n : nat) : list nat := repeat 1 n.
Lemma nth_repeat_lt {A} (a d : A) n i : i < n -> nth i (repeat a n) d = a.
Proof. revert i. induction n as [|n IH]; intros i H; [lia|]. destruct i; cbn; auto. apply IH. lia. Qed.
Definition skipped (off : nat) (skip : option nat) (tabs : list (list trow)) : list (list nat) :=
  map (fun '(j, t) => match skip with Some i => if i =? j then ones (length t) else t_count t | None => t_count t end)
      (combine (seq off (length tabs)) tabs).
Lemma weigh_ok tabs skip : forall s w mn off, length tabs <= length s ->
  (forall i, i < length tabs -> nth i s 0 < length (nth i tabs [])) -> tsel (map t_mines tabs) s <= mn ->
  foldM (fun '(w, mn) '(j, (t, a)) =>
           let* r := vget t a in
           let* mn := usub mn (fst (fst r)) in
           Ok (match skip with
               | Some i => if i =? j then w else w * snd (fst r)
               | None => w * snd (fst r)
               end, mn))
        (combine (seq off (length tabs)) (combine tabs s)) (w, mn) =
  Ok (w * psel (skipped off skip tabs) s, mn - tsel (map t_mines tabs) s).
Proof.
  induction tabs as [|t tabs IH]; intros s w mn off L H Hm.
  - cbn. do 2 f_equal; lia.
  - destruct s as [|a s]; [cbn in L; lia|]. pose proof (H 0 ltac:(cbn; lia)) as Ha. cbn [nth] in Ha.
    cbn [length seq combine foldM]. rewrite (vget_ok (0, 0, [])) by auto. cbn [bind]. cbn [map tsel] in Hm.
    assert (Ek : nth a (t_mines t) 0 = fst (fst (nth a t (0, 0, [])))) by (apply (@nth_map_lt _ _ (fun r : trow => fst (fst r)) t a 0 (0, 0, [])); lia).
    assert (Ec : nth a (t_count t) 0 = snd (fst (nth a t (0, 0, [])))) by (apply (@nth_map_lt _ _ (fun r : trow => snd (fst r)) t a 0 (0, 0, [])); lia).
    unfold usub. rewrite <- Ek. destruct (Nat.leb_spec (nth a (t_mines t) 0) mn); [|lia]. cbn [bind].
    rewrite IH; [|cbn in L; lia|intros i Hi; apply (H (S i)); cbn; lia|lia].
    unfold skipped. cbn [length seq combine map psel tsel]. rewrite Ek, <- Ec.
    do 2 f_equal; [|lia]. destruct skip as [i|]; [|lia]. destruct (i =? off); [|lia]. unfold ones. rewrite nth_repeat_lt by lia. lia.
Qed.
Lemma skipped_none tabs : forall off, skipped off None tabs = cols tabs.
Proof. unfold skipped, cols. induction tabs as [|t tabs IH]; intros off; cbn [length seq combine map]; auto. now rewrite IH. Qed.
Lemma skipped_some tabs : forall off i, i < length tabs -> skipped off (Some (off + i)) tabs = upd_nth (cols tabs) i (ones (length (nth i tabs []))).
Proof.
  unfold skipped, cols. induction tabs as [|t tabs IH]; intros off i Hi; cbn [length] in Hi; [lia|]. cbn [length seq combine map].
  destruct i as [|i].
  - rewrite Nat.add_0_r, Nat.eqb_refl. cbn [upd_nth nth]. f_equal. 
    assert (G : forall l o, off < o -> map (fun '(j, t) => if off =? j then ones (length t) else t_count t) (combine (seq o (length l)) l) = map t_count l).
    { intros l. induction l as [|u l IHl]; intros o Ho; cbn [length seq combine map]; auto. destruct (Nat.eqb_spec off o); [lia|]. now rewrite IHl by lia. }
    apply G. lia.
  - destruct (Nat.eqb_spec (off + S i) off); [lia|]. cbn [upd_nth nth]. f_equal. replace (off + S i) with (S off + i) by lia. apply IH. lia.
Qed.
Lemma psel_upd fs : forall i s f, i < length fs -> length fs <= length s -> nth i s 0 < length f ->
  psel (upd_nth fs i f) s = psel (upd_nth fs i (ones (length f))) s * nth (nth i s 0) f 0.
Proof.
  induction fs as [|g fs IH]; intros i s f Hi L Hs; cbn [length] in *; [lia|]. destruct s as [|a s]; [cbn in L; lia|]. destruct i as [|i]; cbn [upd_nth psel nth] in *.
  - unfold ones. rewrite nth_repeat_lt by auto. lia.
  - cbn [length] in L. rewrite (IH i s f) by lia. lia.
Qed.

Lemma position_ok l v : In v l -> exists i, position l v = Ok i /\ i < length l /\ nth i l 0 = v.
Proof.
  induction l as [|a l IH]; intros H; [destruct H|]. cbn [position]. destruct (Nat.eqb_spec a v) as [->|Hn].
  - exists 0. cbn. split; auto. split; [lia|auto].
  - destruct H as [H|H]; [contradiction|]. destruct (IH H) as (i & E & Hi & En). rewrite E. cbn [bind]. exists (S i). cbn. split; auto. split; [lia|auto].
Qed.
Lemma position_nodup l i : NoDup l -> i < length l -> position l (nth i l 0) = Ok i.
Proof.
  intros Nd Hi. destruct (position_ok (nth_In l 0 Hi)) as (j & E & Hj & En). rewrite E. f_equal. eapply NoDup_nth; eauto.
Qed.

(** ** the table of sums *)
Definition holds_f (lens : list nat) (f : nat -> nat -> nat) (o : list (list nat)) : Prop :=
  length o = length lens /\ forall i, i < length lens -> length (nth i o []) = nth i lens 0 /\ forall a, a < nth i lens 0 -> nth a (nth i o []) 0 = f i a.
Lemma holds_ext lens f g o : (forall i a, f i a = g i a) -> holds_f lens f o -> holds_f lens g o.
Proof. intros E [L H]. split; auto. intros i Hi. destruct (H i Hi) as [H1 H2]. split; auto. intros a Ha. now rewrite H2. Qed.
Lemma add_at_ok lens f o i a w : holds_f lens f o -> i < length lens -> a < nth i lens 0 ->
  exists o', add_at o i a w = Ok o' /\ holds_f lens (fun i' a' => f i' a' + (if (i' =? i) && (a' =? a) then w else 0)) o'.
Proof.
  intros [L H] Hi Ha. destruct (H i Hi) as [Li Hv]. unfold add_at, get, set.
  rewrite (nth_error_nth' o []) by lia. rewrite (nth_error_nth' (nth i o []) 0) by lia. cbn [bind].
  destruct (Nat.ltb_spec a (length (nth i o []))); [|lia]. eexists. split; [reflexivity|]. split; [now rewrite length_upd_nth|].
  intros i' Hi'. destruct (Nat.eqb_spec i' i) as [->|Hne].
  - rewrite nth_upd_nth_eq by lia. rewrite length_upd_nth. split; auto. intros a' Ha'. destruct (Nat.eqb_spec a' a) as [->|Hna]; cbn [andb].
    + rewrite nth_upd_nth_eq by lia. now rewrite Hv.
    + rewrite nth_upd_nth_neq by auto. rewrite Hv by auto. lia.
  - rewrite nth_upd_nth_neq by auto. destruct (H i' Hi') as [L' H']. split; auto. intros a' Ha'. cbn [andb]. rewrite H' by auto. lia.
Qed.

Lemma tsel_last ks u : forall s, length s = S (length ks) -> tsel (ks ++ [u]) s = tsel ks s + nth (nth (length ks) s 0) u 0.
Proof.
  induction ks as [|k ks IH]; intros s L; destruct s as [|a s]; try discriminate L; cbn [app tsel length nth] in *.
  - lia.
  - rewrite IH by lia. lia.
Qed.
Lemma psel_last fs u : forall s, length s = S (length fs) -> psel (fs ++ [u]) s = psel fs s * nth (nth (length fs) s 0) u 0.
Proof.
  induction fs as [|k fs IH]; intros s L; destruct s as [|a s]; try discriminate L; cbn [app psel length nth] in *.
  - lia.
  - rewrite IH by lia. lia.
Qed.
Lemma sumn_one {A} (f : A -> bool) (x : nat) l (dec : forall a b : A, {a = b} + {a <> b}) a0 : NoDup l -> (forall a, f a = true <-> a = a0) -> In a0 l ->
  sumn (fun a => if f a then x else 0) l = x.
Proof.
  intros Nd Hf Hi. induction Nd as [|a l Hn Nd IH]; [destruct Hi|]. cbn [sumn]. destruct (f a) eqn:E.
  - apply Hf in E as ->. rewrite sumn_zero; [lia|]. intros b Hb. destruct (f b) eqn:Eb; auto. apply Hf in Eb as ->. contradiction.
  - destruct Hi as [->|Hi]; [|auto]. assert (f a0 = true) by now apply Hf. congruence.
Qed.

Section Code.
Variables (tabs : list (list trow)) (unk unkC : list nat) (M : nat).
Let n := length tabs.
Let kss := map t_mines tabs ++ [unk].
Let lens := map (@length nat) kss.
Definition valid (s : list nat) : Prop := In s (cart (map indices kss)) /\ tsel kss s = M.

Lemma valid_facts s : valid s -> length s = S n /\ (forall i, i < n -> nth i s 0 < length (nth i tabs [])) /\ nth n s 0 < length unk /\
  tsel (map t_mines tabs) s + nth (nth n s 0) unk 0 = M.
Proof.
  intros [H HM]. apply in_cart in H as [L H]. unfold kss in L, H. rewrite app_length, map_length in L, H. cbn [length] in L, H. fold n in L, H.
  assert (Ls : length s = S n) by lia. split; auto. split; [|split].
  - intros i Hi. specialize (H i ltac:(lia)). rewrite app_nth1 in H by (rewrite map_length; fold n; lia).
    rewrite (@nth_map_lt _ _ t_mines tabs i [] []) in H by (fold n; lia). unfold t_mines in H. now rewrite map_length in H.
  - specialize (H n ltac:(lia)). rewrite app_nth2 in H by (rewrite map_length; fold n; lia). rewrite map_length in H. fold n in H. now rewrite Nat.sub_diag in H.
  - rewrite <- HM. unfold kss. rewrite tsel_last by (rewrite map_length; exact Ls). rewrite map_length. reflexivity.
Qed.
Lemma len_tabs i : i < n -> nth i lens 0 = length (nth i tabs []).
Proof.
  intros Hi. unfold lens, kss. rewrite map_app, app_nth1 by (rewrite !map_length; auto). rewrite map_map, (@nth_map_lt _ _ _ tabs i 0 []) by auto.
  unfold t_mines. apply map_length.
Qed.
Lemma len_unk : nth n lens 0 = length unk.
Proof. unfold lens, kss. rewrite map_app, app_nth2 by (rewrite !map_length; fold n; lia). rewrite !map_length. fold n. now rewrite Nat.sub_diag. Qed.
Lemma length_lens : length lens = S n.
Proof. unfold lens, kss. rewrite map_length, app_length, map_length. cbn. fold n. lia. Qed.

Definition K (s : list nat) (i : nat) : nat :=
  if i <? n then psel (upd_nth (cols tabs) i (ones (length (nth i tabs [])))) s * nth (nth n s 0) unkC 0 else psel (cols tabs) s.
(** sum of the entries of one line of the table, weighted *)
Lemma line_sum sel other i (g : nat -> nat) : Forall valid sel ->
  holds_f lens (fun i a => sumn (fun s => if (i <=? n) && (a =? nth i s 0) then K s i else 0) sel) other -> i <= n ->
  sumn (fun a => nth a (nth i other []) 0 * g a) (seq 0 (nth i lens 0)) = sumn (fun s => K s i * g (nth i s 0)) sel.
Proof.
  intros Hv [L H] Hi. destruct (H i ltac:(rewrite length_lens; lia)) as [_ Hval].
  rewrite (@sumn_ext _ _ (fun a => sumn (fun s => if a =? nth i s 0 then K s i * g (nth i s 0) else 0) sel)).
  2:{ intros a Ha. apply in_seq in Ha. rewrite Hval by lia. rewrite <- sumn_scale_r. apply sumn_ext. intros s _.
      destruct (Nat.leb_spec i n); [|lia]. cbn [andb]. destruct (Nat.eqb_spec a (nth i s 0)) as [->|]; lia. }
  rewrite sumn_swap. apply sumn_ext. intros s Hs. rewrite Forall_forall in Hv. destruct (valid_facts (Hv s Hs)) as (Ls & Hb & Hu & _).
  apply sumn_one with (a0 := nth i s 0); [apply Nat.eq_dec|apply seq_NoDup|intros a; apply Nat.eqb_eq|].
  apply in_seq. split; [lia|]. destruct (Nat.eq_dec i n) as [->|Hne]; [rewrite len_unk; lia|]. rewrite len_tabs by lia. apply Hb. lia.
Qed.
Hypothesis Nd : NoDup unk.
Hypothesis LC : length unkC = length unk.
Lemma tally_ok s other f : valid s -> holds_f lens f other ->
  exists other', tally tabs unk unkC M other s = Ok other' /\
    holds_f lens (fun i a => f i a + (if (i <=? n) && (a =? nth i s 0) then K s i else 0)) other'.
Proof.
  intros Hv Hf. destruct (valid_facts Hv) as (L & Hs & Hn & HM). unfold tally. fold n.
  assert (Hw : forall skip, weigh tabs M skip s = Ok (psel (skipped 0 skip tabs) s, nth (nth n s 0) unk 0)).
  { intros skip. unfold weigh. rewrite (weigh_ok skip) by (auto; fold n; lia). do 2 f_equal; lia. }
  assert (G : forall l o g, (forall i, In i l -> i < n) -> holds_f lens g o ->
    exists o', foldM (fun other i =>
                  let* (w, mn) := weigh tabs M (Some i) s in
                  let* ps := position unk mn in
                  let* c := vget unkC ps in
                  let* a := vget s i in
                  add_at other i a (w * c)) l o = Ok o' /\
      holds_f lens (fun i a => g i a + sumn (fun j => if (i =? j) && (a =? nth j s 0) then K s j else 0) l) o').
  { intros l. induction l as [|i l IH]; intros o g Hl Hg.
    - exists o. split; [reflexivity|]. eapply holds_ext; [|exact Hg]. intros. cbn. lia.
    - assert (Hi : i < n) by (apply Hl; now left). cbn [foldM]. rewrite Hw. cbn [bind]. rewrite position_nodup by auto. cbn [bind].
      rewrite (vget_ok 0) by lia. cbn [bind]. rewrite (vget_ok 0) by lia. cbn [bind].
      destruct (@add_at_ok lens g o i (nth i s 0) (psel (skipped 0 (Some i) tabs) s * nth (nth n s 0) unkC 0) Hg) as (o1 & E1 & H1).
      + rewrite length_lens. lia.
      + rewrite len_tabs by auto. auto.
      + rewrite E1. cbn [bind]. destruct (IH o1 _ (fun j Hj => Hl j (or_intror Hj)) H1) as (o2 & E2 & H2). exists o2. split; [exact E2|].
        eapply holds_ext; [|exact H2]. intros i' a'. cbn beta. cbn [sumn].
        replace (K s i) with (psel (skipped 0 (Some i) tabs) s * nth (nth n s 0) unkC 0).
        2:{ unfold K. destruct (Nat.ltb_spec i n); [|lia]. pose proof (@skipped_some tabs 0 i Hi) as Es; cbn [Nat.add] in Es; now rewrite Es. }
        destruct ((i' =? i) && (a' =? nth i s 0)); lia. }
  destruct (G (seq 0 n) other f) as (o1 & E1 & H1); [intros i Hi; apply in_seq in Hi; lia|auto|]. rewrite E1. cbn [bind]. rewrite Hw. cbn [bind].
  rewrite position_nodup by auto. cbn [bind].
  destruct (@add_at_ok lens _ o1 n (nth n s 0) (psel (skipped 0 None tabs) s) H1) as (o2 & E2 & H2).
  - rewrite length_lens. lia.
  - now rewrite len_unk.
  - exists o2. split; [exact E2|]. eapply holds_ext; [|exact H2]. intros i a. cbn beta. rewrite <- Nat.add_assoc. f_equal.
    destruct (Nat.leb_spec i n) as [Hi|Hi]; cbn [andb].
    + destruct (Nat.eq_dec i n) as [->|Hne].
      * rewrite Nat.eqb_refl. cbn [andb]. rewrite sumn_zero.
        2:{ intros j Hj. apply in_seq in Hj. destruct (Nat.eqb_spec n j); [lia|reflexivity]. }
        unfold K. destruct (Nat.ltb_spec n n); [lia|]. rewrite skipped_none. reflexivity.
      * destruct (Nat.eqb_spec i n); [lia|]. cbn [andb]. rewrite Nat.add_0_r. destruct (Nat.eqb_spec a (nth i s 0)) as [->|Ha].
        -- rewrite (@sumn_ext _ _ (fun j => if i =? j then K s i else 0)).
           2:{ intros j _. destruct (Nat.eqb_spec i j) as [->|]; cbn [andb]; auto. now rewrite Nat.eqb_refl. }
           apply sumn_one with (a0 := i); [apply Nat.eq_dec|apply seq_NoDup| |apply in_seq; lia].
           intros j. rewrite Nat.eqb_eq. split; congruence.
        -- apply sumn_zero. intros j _. destruct (Nat.eqb_spec i j) as [->|]; cbn [andb]; auto. destruct (Nat.eqb_spec a (nth j s 0)); [contradiction|auto].
    + rewrite sumn_zero. 2:{ intros j Hj. apply in_seq in Hj. destruct (Nat.eqb_spec i j); [lia|reflexivity]. }
      destruct (Nat.eqb_spec i n); [lia|]. reflexivity.
Qed.
Lemma tallies_ok sel : Forall valid sel -> exists other, foldM (tally tabs unk unkC M) sel (map (fun l => repeat 0 (length l)) kss) = Ok other /\
  holds_f lens (fun i a => sumn (fun s => if (i <=? n) && (a =? nth i s 0) then K s i else 0) sel) other.
Proof.
  intros Hv.
  assert (G : forall o f, holds_f lens f o -> exists o', foldM (tally tabs unk unkC M) sel o = Ok o' /\
     holds_f lens (fun i a => f i a + sumn (fun s => if (i <=? n) && (a =? nth i s 0) then K s i else 0) sel) o').
  { induction Hv as [|s sel Hs Hv IH]; intros o f Hf.
    - exists o. split; [reflexivity|]. eapply holds_ext; [|exact Hf]. intros. cbn. lia.
    - destruct (tally_ok Hs Hf) as (o1 & E1 & H1). cbn [foldM]. rewrite E1. cbn [bind]. destruct (IH _ _ H1) as (o2 & E2 & H2). exists o2. split; auto.
      eapply holds_ext; [|exact H2]. intros i a. cbn [sumn]. lia. }
  destruct (G (map (fun l => repeat 0 (length l)) kss) (fun _ _ => 0)) as (o & E & H).
  - split; [unfold lens; now rewrite !map_length|]. intros i Hi. unfold lens in *. rewrite map_length in Hi.
    rewrite (@nth_map_lt _ _ _ kss i [] []), (@nth_map_lt _ _ _ kss i 0 []) by auto. split; [apply repeat_length|]. intros a Ha. now apply nth_repeat_lt.
  - exists o. split; auto.
Qed.
End Code.
