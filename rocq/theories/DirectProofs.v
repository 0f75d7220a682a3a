(** * DirectProofs: solve_direct only replaces forced unknowns, and never loses a solution. *)
From Verif Require Import Base Spec BaseFacts Matrix Solve SolverSpec MatrixProofs LinFacts.
Open Scope Z_scope.

Lemma rev_seq_S n : rev (seq 0 (S n)) = n :: rev (seq 0 n).
Proof. rewrite seq_S, rev_app_distr. reflexivity. Qed.

Lemma zsum_sumz_acc l : forall acc, fold_left Z.add l acc = acc + sumz (fun c => c) l.
Proof. induction l as [|c l IH]; intros acc; cbn; [lia|]. rewrite IH. lia. Qed.
Lemma zsum_sumz l : zsum l = sumz (fun c => c) l.
Proof. unfold zsum. rewrite zsum_sumz_acc. lia. Qed.

Section Board.
Variables (row column : nat).

(** [bd'] is [bd] with the cells of [found] overwritten by [val]. *)
Definition marked_as (val : Z) (found : list pos) (bd bd' : board) : Prop :=
  rect row column bd' /\ forall q, cell bd' q = if mem_pos q found then val else cell bd q.
Lemma marked_nil val bd : rect row column bd -> marked_as val [] bd bd.
Proof. intros H. split; auto. Qed.
Lemma marked_trans val f1 f2 bd bd1 bd2 : marked_as val f1 bd bd1 -> marked_as val f2 bd1 bd2 -> marked_as val (f1 ++ f2) bd bd2.
Proof.
  intros [R1 H1] [R2 H2]. split; auto. intros q. rewrite H2, H1. unfold mem_pos. rewrite existsb_app.
  destruct (existsb (posb q) f1), (existsb (posb q) f2); reflexivity.
Qed.
Lemma set_marked val bd p : rect row column bd -> inb row column p ->
  exists bd', set bd (fst p) (snd p) val = Ok bd' /\ marked_as val [p] bd bd'.
Proof.
  intros Hr Hp. destruct p as [i j]. cbn [fst snd]. rewrite (set_ok val Hr Hp). eexists. split; [reflexivity|]. split; [now apply rect_upd|].
  intros q. cbn [mem_pos existsb]. rewrite (cell_upd _ _ Hr Hp). rewrite orb_false_r, posb_sym. reflexivity.
Qed.

Section Sweep.
Variable mine : bool.
Let val := if mine then 11 else 12.

Lemma take_col_ok x es k : Forall (wfe x) es -> (k < length x)%nat ->
  take_col mine k es = Ok (map (fun '(a, b) => (remove_nth a k, if mine then b - nth k a 0 else b)) es).
Proof.
  intros Hw Hk. unfold take_col. apply mapM_ok. intros [a b] Hi. rewrite Forall_forall in Hw. destruct (Hw _ Hi) as [Hl _]. cbn [fst] in Hl.
  rewrite (@vget_ok _ a k 0) by lia. cbn [bind]. rewrite vremove_ok by lia. reflexivity.
Qed.

(** after the sweep of equation i over columns [0..n), all its coefficients are zero *)
Lemma sweep_ok i n : forall es x out bd,
  NoDup x -> Forall (wfe x) es -> Forall (inb row column) x -> rect row column bd ->
  (n <= length x)%nat -> (i < length es)%nat ->
  (forall k, (n <= k < length x)%nat -> nth k (fst (nth i es ([], 0))) 0 = 0) ->
  exists es' x' found bd',
    foldM (fun '(es, x, out, bd) k =>
           let* e := vget es i in
           let* c := vget (fst e) k in
           if 1 <=? c then
             let* p := vget x k in
             let* bd := set bd (fst p) (snd p) (if mine then 11 else 12) in
             let* x := vremove x k in
             let* es := take_col mine k es in
             Ok (es, x, out ++ [p], bd)
           else Ok (es, x, out, bd)) (rev (seq 0 n)) (es, x, out, bd) = Ok (es', x', out ++ found, bd') /\
    red mine found x es x' es' /\ marked_as val found bd bd' /\
    (forall q, In q found -> coef (fst (nth i es ([], 0))) x q = 1) /\
    (forall q, coef (fst (nth i es' ([], 0))) x' q = 0).
Proof.
  induction n as [|n IH]; intros es x out bd Hnd Hw Hx Hbd Hn Hi Hz.
  - exists es, x, [], bd. cbn [seq rev foldM]. rewrite app_nil_r. split; auto. split; [now apply red_refl|]. split; [now apply marked_nil|].
    split; [intros q []|]. intros q. destruct (in_dec pos_eq_dec q x) as [Hq|Hq]; [|now apply coef_out].
    apply (In_nth _ _ (0, 0)%nat) in Hq as (k & Hk & <-). rewrite Forall_forall in Hw.
    destruct (Hw (nth i es ([], 0))) as [Hl _]; [now apply nth_In|]. rewrite coef_nth; auto. apply Hz. lia.
  - assert (Hwi : wfe x (nth i es ([], 0))) by (rewrite Forall_forall in Hw; apply Hw, nth_In; auto).
    destruct Hwi as [Hl Hb]. rewrite rev_seq_S. cbn [foldM].
    rewrite (@vget_ok _ es i ([], 0)) by auto. cbn [bind]. rewrite (@vget_ok _ _ n 0) by lia. cbn [bind].
    assert (Ecn : coef (fst (nth i es ([], 0))) x (nth n x (0, 0)%nat) = nth n (fst (nth i es ([], 0))) 0) by (apply coef_nth; auto; lia).
    destruct (Z.leb_spec 1 (nth n (fst (nth i es ([], 0))) 0)) as [Hc|Hc].
    + rewrite (@vget_ok _ x n (0, 0)%nat) by lia. cbn [bind].
      assert (Hp : inb row column (nth n x (0, 0)%nat)) by (rewrite Forall_forall in Hx; apply Hx, nth_In; lia).
      destruct (set_marked (if mine then 11 else 12) Hbd Hp) as (bd1 & Eb & Hm1). rewrite Eb. cbn [bind].
      rewrite vremove_ok by lia. cbn [bind]. rewrite (take_col_ok Hw) by lia. cbn [bind].
      assert (Hr1 := @red_one mine x es n (0, 0)%nat Hnd Hw ltac:(lia)).
      set (es1 := map (fun '(a, b) => (remove_nth a n, if mine then b - nth n a 0 else b)) es) in *.
      destruct (red_wfe Hnd Hw Hr1) as [Hnd1 Hw1].
      assert (Ei : fst (nth i es1 ([], 0)) = remove_nth (fst (nth i es ([], 0))) n).
      { unfold es1. rewrite (@nth_map_lt _ _ _ es i ([], 0) ([], 0)) by auto. destruct (nth i es ([], 0)); reflexivity. }
      destruct (IH es1 (remove_nth x n) (out ++ [nth n x (0, 0)%nat]) bd1) as (es' & x' & found & bd' & A & B & C & D & E); auto.
      * now apply Forall_remove_nth.
      * apply Hm1.
      * rewrite length_remove_nth; lia.
      * unfold es1. now rewrite map_length.
      * intros k Hk. rewrite length_remove_nth in Hk by lia. rewrite Ei, nth_remove_nth by lia.
        destruct (Nat.ltb_spec k n); [lia|]. apply Hz. lia.
      * exists es', x', (nth n x (0, 0)%nat :: found), bd'. rewrite A. rewrite <- app_assoc. split; auto.
        split; [exact (red_trans Hr1 B)|]. split; [exact (marked_trans Hm1 C)|]. split; auto.
        intros q [<-|Hq]; [destruct (Hb (nth n x (0, 0)%nat)); lia|]. 
        assert (Hq' : In q (remove_nth x n)). { destruct B as [P _]. eapply Permutation_in; [symmetry; exact P|]. apply in_app_iff; auto. }
        apply (@In_remove_nth _ (0, 0)%nat x n q) in Hq' as [_ Hne]; [|lia|auto].
        rewrite <- (D q Hq), Ei. symmetry. apply coef_remove with (d := (0, 0)%nat); auto; lia.
    + destruct (IH es x out bd) as (es' & x' & found & bd' & A & B); auto; [lia| |].
      * intros k Hk. destruct (Nat.eq_dec k n) as [->|]; [|apply Hz; lia]. rewrite <- Ecn in *. destruct (Hb (nth n x (0, 0)%nat)); lia.
      * exists es', x', found, bd'. auto.
Qed.

(** the forcing rule *)
Lemma forced x e v : NoDup x -> wfe x e -> sat_eq x v e ->
  (if mine then zsum (fst e) =? snd e else snd e =? 0) = true ->
  forall q, In q x -> coef (fst e) x q = 1 -> v q = mine.
Proof.
  intros Hnd [Hl Hb] Hs Hr q Hq Hc. unfold sat_eq in Hs. rewrite dot_coef in Hs by auto.
  assert (Hle : forall p, In p x -> 0 <= coef (fst e) x p * b2z (v p) <= coef (fst e) x p).
  { intros p _. destruct (Hb p) as [E|E]; rewrite E; destruct (v p); cbn [b2z]; lia. }
  destruct mine.
  - apply Z.eqb_eq in Hr. rewrite zsum_sumz, (zsum_coef Hnd Hl) in Hr. rewrite <- Hr in Hs.
    pose proof (@sumz_tight _ _ _ x (fun p Hp => proj2 (Hle p Hp)) Hs q Hq) as T. rewrite Hc in T. destruct (v q); cbn [b2z] in T; auto; lia.
  - apply Z.eqb_eq in Hr. rewrite Hr in Hs.
    assert (E0 : sumz (fun _ => 0) x = sumz (fun p => coef (fst e) x p * b2z (v p)) x) by (rewrite Hs; apply sumz_zero; auto).
    pose proof (@sumz_tight _ _ _ x (fun p Hp => proj1 (Hle p Hp)) E0 q Hq) as T. cbn beta in T. rewrite Hc in T. destruct (v q); cbn [b2z] in T; auto; lia.
Qed.

(** what one phase does to a block *)
Record phase (x : list pos) (es : list equation) (found x' : list pos) (es' : list equation) : Prop := {
  ph_perm : Permutation x (found ++ x');
  ph_wf : Forall (wfe x') es';
  ph_sat : forall v, Forall (sat_eq x v) es <-> (forall p, In p found -> v p = mine) /\ Forall (sat_eq x' v) es';
  ph_cov : cov x es -> cov x' es';
  ph_light : Forall (light x) es -> Forall (light x') es';
  ph_snd : mine = false -> forall e', In e' es' -> exists e, In e es /\ snd e' = snd e
}.

Lemma phase_refl x es : Forall (wfe x) es -> phase x es [] x es.
Proof.
  intros H. constructor; auto. - intros v. split; [intros Hs; split; auto; intros p []|tauto]. - eauto.
Qed.
Lemma phase_trans x es f1 x1 es1 f2 x2 es2 : phase x es f1 x1 es1 -> phase x1 es1 f2 x2 es2 -> phase x es (f1 ++ f2) x2 es2.
Proof.
  intros A B. constructor.
  - rewrite (ph_perm A), (ph_perm B). now rewrite app_assoc.
  - apply B.
  - intros v. rewrite (ph_sat A), (ph_sat B). split.
    + intros (H1 & H2 & H3). split; auto. intros p Hp. apply in_app_iff in Hp as [|]; auto.
    + intros (H1 & H2). split; [|split; auto]; intros p Hp; apply H1, in_app_iff; auto.
  - intros H. apply (ph_cov B), (ph_cov A), H.
  - intros H. apply (ph_light B), (ph_light A), H.
  - intros Hm e' He'. destruct (ph_snd B Hm He') as (e1 & H1 & ->). destruct (ph_snd A Hm H1) as (e & H & ->). eauto.
Qed.

Lemma nth_remove_in {A} (d : A) l i e : (i < length l)%nat -> In e l -> e = nth i l d \/ In e (remove_nth l i).
Proof. intros Hi He. eapply Permutation_in in He; [|apply (remove_nth_perm d Hi)]. destruct He; auto. Qed.

(** one decided equation: sweep, then the equation is removed *)
Lemma row_phase i es x found x' es' :
  NoDup x -> Forall (wfe x) es -> (i < length es)%nat ->
  (if mine then zsum (fst (nth i es ([], 0))) =? snd (nth i es ([], 0)) else snd (nth i es ([], 0)) =? 0) = true ->
  red mine found x es x' es' ->
  (forall q, In q found -> coef (fst (nth i es ([], 0))) x q = 1) ->
  (forall q, coef (fst (nth i es' ([], 0))) x' q = 0) ->
  phase x es found x' (remove_nth es' i).
Proof.
  intros Hnd Hw Hi Hrule Hr Hf Hz. destruct (red_wfe Hnd Hw Hr) as [Hnd' Hw'].
  assert (Hlen : length es' = length es) by (destruct Hr as [_ F]; symmetry; eapply Forall2_length; eauto).
  assert (Hwi : wfe x (nth i es ([], 0))) by (rewrite Forall_forall in Hw; apply Hw, nth_In; auto).
  constructor.
  - apply Hr.
  - now apply Forall_remove_nth.
  - intros v. split.
    + intros Hs. assert (Hv : forall p, In p found -> v p = mine).
      { intros p Hp. apply (@forced x (nth i es ([], 0)) v); auto.
        - rewrite Forall_forall in Hs. apply Hs, nth_In; auto.
        - destruct Hr as [P _]. eapply Permutation_in; [symmetry; exact P|]. apply in_app_iff; auto. }
      split; auto. apply Forall_remove_nth. pose proof (red_sat Hnd Hw Hr Hv) as F.
      clear - F Hs. induction F; auto. inversion Hs; subst. constructor; auto. now apply H.
    + intros [Hv Hs]. pose proof (red_sat Hnd Hw Hr Hv) as F.
      apply Forall_forall. intros e He. destruct (Forall2_in_l F He) as (e' & He' & Hiff). apply Hiff.
      destruct (@nth_remove_in _ ([], 0) es' i e') as [->|Hrem]; auto; [lia| |rewrite Forall_forall in Hs; auto].
      (* the removed equation is 0 = 0 *)
      clear Hiff. destruct Hr as [P F2]. 
      assert (G : length (fst (nth i es' ([], 0))) = length x' /\ (forall q, In q x' -> coef (fst (nth i es' ([], 0))) x' q = coef (fst (nth i es ([], 0))) x q) /\
             snd (nth i es' ([], 0)) = snd (nth i es ([], 0)) - (if mine then sumz (coef (fst (nth i es ([], 0))) x) found else 0)).
      { clear - F2 Hi. revert i Hi. induction F2; intros i Hi; cbn in Hi; [lia|]. destruct i; cbn; auto. apply IHF2. lia. }
      destruct G as (G1 & G2 & G3). unfold sat_eq. rewrite dot_coef by auto.
      rewrite sumz_zero by (intros q _; rewrite Hz; lia). rewrite G3. destruct mine.
      * apply Z.eqb_eq in Hrule. rewrite zsum_sumz, (@zsum_coef _ x) in Hrule by (auto; apply Hwi).
        rewrite (sumz_perm _ P), sumz_app in Hrule.
        rewrite (@sumz_zero _ _ x') in Hrule by (intros q Hq; rewrite <- G2 by auto; apply Hz). lia.
      * apply Z.eqb_eq in Hrule. lia.
  - intros Hc q Hq. destruct (red_cov Hr Hc Hq) as (e & He & Ec). 
    destruct (@nth_remove_in _ ([], 0) es' i e) as [->|Hrem]; auto; [lia| |eauto].
    rewrite Hz in Ec. lia.
  - intros Hl. apply Forall_remove_nth. exact (red_light Hw Hr Hl).
  - intros Hm e' He'. apply In_remove_sub in He'. destruct Hr as [_ F]. destruct (Forall2_in_r F He') as (e & He & _ & _ & E).
    exists e. split; auto. rewrite E, Hm. lia.
Qed.

Lemma direct_phase_ok n : forall es x out bd,
  NoDup x -> Forall (wfe x) es -> Forall (inb row column) x -> rect row column bd -> (n <= length es)%nat ->
  exists es' x' found bd',
    foldM (fun '(es, x, out, bd) i =>
           let* e := vget es i in
           if (if mine then zsum (fst e) =? snd e else snd e =? 0) then
             let* st := sweep mine i (es, x, out, bd) in
             let '(es, x, out, bd) := st in
             let* es := vremove es i in
             Ok (es, x, out, bd)
           else Ok (es, x, out, bd)) (rev (seq 0 n)) (es, x, out, bd) = Ok (es', x', out ++ found, bd') /\
    phase x es found x' es' /\ marked_as val found bd bd' /\
    (mine = false -> (forall k, (n <= k < length es)%nat -> snd (nth k es ([], 0)) <> 0) -> forall e, In e es' -> snd e <> 0).
Proof.
  induction n as [|n IH]; intros es x out bd Hnd Hw Hx Hbd Hn.
  - exists es, x, [], bd. cbn [seq rev foldM]. rewrite app_nil_r. split; auto. split; [now apply phase_refl|]. split; [now apply marked_nil|].
    intros _ Hz e He. apply (In_nth _ _ ([], 0)) in He as (k & Hk & <-). apply Hz. lia.
  - rewrite rev_seq_S. cbn [foldM]. rewrite (@vget_ok _ es n ([], 0)) by lia. cbn [bind].
    match goal with |- context [if (if mine then ?a else ?b) then _ else _] => destruct (if mine then a else b) eqn:Er end.
    + unfold sweep at 1.
      destruct (@sweep_ok n (length x) es x out bd) as (es1 & x1 & f1 & bd1 & A & B & C & D & E); auto; [lia|].
      rewrite A. cbn [bind].
      assert (Hlen1 : length es1 = length es) by (destruct B as [_ F]; symmetry; eapply Forall2_length; eauto).
      rewrite vremove_ok by lia. cbn [bind].
      assert (Hph : phase x es f1 x1 (remove_nth es1 n)) by (eapply row_phase; eauto; lia).
      destruct (red_wfe Hnd Hw B) as [Hnd1 Hw1].
      destruct (IH (remove_nth es1 n) x1 (out ++ f1) bd1) as (es' & x' & f2 & bd' & A' & B' & C' & D'); auto.
      * apply Hph.
      * pose proof (Permutation_Forall (ph_perm Hph) Hx) as Hx'. apply Forall_app in Hx' as [_ Hx']. exact Hx'.
      * apply C.
      * rewrite length_remove_nth; lia.
      * exists es', x', (f1 ++ f2), bd'. rewrite A', app_assoc. split; auto. split; [eapply phase_trans; eauto|]. split; [eapply marked_trans; eauto|].
        intros Hm Hz e He. apply (D' Hm); auto. intros k Hk. rewrite length_remove_nth in Hk by lia. rewrite nth_remove_nth by lia.
        destruct (Nat.ltb_spec k n); [lia|]. 
        assert (Es : snd (nth (S k) es1 ([], 0)) = snd (nth (S k) es ([], 0))).
        { destruct B as [_ F]. clear - F Hm. revert k. generalize (([], 0) : equation). intros d k. generalize (S k). clear k. induction F; intros [|k]; cbn; auto.
          destruct H as (_ & _ & ->). rewrite Hm. lia. }
        rewrite Es. apply Hz. lia.
    + destruct (IH es x out bd) as (es' & x' & f & bd' & A & B & C & D); auto; [lia|].
      exists es', x', f, bd'. cbn [bind]. rewrite A. split; auto. split; auto. split; auto.
      intros Hm Hz. apply D; auto. intros k Hk. destruct (Nat.eq_dec k n) as [->|]; [|apply Hz; lia].
      rewrite Hm in Er. apply Z.eqb_neq. exact Er.
Qed.
End Sweep.
End Board.
