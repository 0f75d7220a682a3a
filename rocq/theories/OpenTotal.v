(** * OpenTotal: [op_possibility] when the cell can not be an opening. *)
From Verif Require Import Base Spec BaseFacts LayMine Matrix Solve Utils UtilsProofs SolverSpec LinFacts SolveProofs ChunkProofs MatrixProofs CombineProofs TableProofs EnumProofs EnumBlock EnumSolve PosProofs MatrixMeaning
  Possibility PossSpec PossProofs PossSums PossCode PossMain PropsPoss PossBoard MarkWorlds PropsOpening RobustProofs PropsRobust.
Open Scope nat_scope.

(** ** the fractions are at most 1 *)
Lemma ways_mono I rows rows' : Forall2 (Forall2 (fun kf kf' => fst kf = fst kf' /\ snd kf <= snd kf')) rows rows' -> forall phi, ways I rows phi <= ways I rows' phi.
Proof.
  induction 1 as [|r r' rows rows' Hr F IH]; intros phi; cbn [ways]; auto.
  induction Hr as [|[k f] [k' f'] r r' [E H] Hr IHr]; cbn [sumn]; auto. cbn [fst snd] in *. subst k'.
  apply Nat.add_le_mono; auto. apply Nat.mul_le_mono; auto.
Qed.
Lemma ways_scale I J c rows : (forall phi, I phi <= c * J phi) -> forall phi, ways I rows phi <= c * ways J rows phi.
Proof.
  intros H. induction rows as [|r rows IH]; intros phi; cbn [ways]; auto.
  induction r as [|[k f] r IHr]; cbn [sumn]; [lia|]. cbn [fst snd]. specialize (IH (fun t => phi (k + t))). nia.
Qed.
Lemma n_sol_at_le B k q : n_sol_at B k q <= n_sol B k.
Proof.
  unfold n_sol_at, n_sol. rewrite !count_b1. apply TableProofs.sumn_le. intros s _. destruct (length s =? k), (mem_pos q s); cbn; lia.
Qed.
Lemma rowf_le f h w : (forall k, f k <= h k) -> Forall2 (fun kf kf' => fst kf = fst kf' /\ snd kf <= snd kf') (rowf f w) (rowf h w).
Proof. intros H. unfold rowf. induction (seq (fst w) (snd w)) as [|k l IH]; cbn [map]; constructor; cbn; auto. Qed.
Lemma numer_le bl W U m i q : length bl = length W -> numer bl W U m i q <= worlds_total bl W U m.
Proof.
  intros L. unfold numer, worlds_total. apply ways_mono. revert W i L. unfold rowsB. induction bl as [|B bl IH]; intros [|w W] i L; try discriminate L.
  - destruct i; constructor.
  - cbn [combine map]. assert (R : forall l : list (nat * nat), Forall2 (fun kf kf' => fst kf = fst kf' /\ snd kf <= snd kf') l l) by (induction l; constructor; auto).
    destruct i as [|i]; cbn [upd_nth nth].
    + constructor; [apply rowf_le; intros; apply n_sol_at_le|]. induction (map _ (combine bl W)); constructor; auto.
    + constructor; auto. 
Qed.
Lemma inner_le bl W U m : ways (full U (fun k => k)) (rowsB bl W) (exactly m) <= worlds_total bl W U m * U.
Proof.
  rewrite Nat.mul_comm. unfold worlds_total. apply ways_scale. intros phi. unfold full. rewrite <- sumn_scale. apply TableProofs.sumn_le. intros k Hk. apply in_seq in Hk.
  assert (k * (binom U k * phi k) <= U * (binom U k * phi k)) by (apply Nat.mul_le_mono_r; lia). lia.
Qed.

Lemma ok_le row column g spec p pu range len : rect row column g -> 0 < row -> small_blocks g -> not_overflagged row column g ->
  cal_possibility g spec = Ok (p, pu, range, len) -> fst pu <= snd pu /\ forall q f, In (q, f) p -> fst f <= snd f.
Proof.
  intros Hr H0 Hsm Ho E. destruct (front_blocks_ok Hr H0 Hsm) as (bl & Fb).
  destruct (pieces_cases (fb_good Fb) (fb_nonneg Fb Ho) (fb_small Fb)) as [(W & HW & Ep)|[_ Ep]].
  2:{ rewrite (cal_split spec Fb), Ep in E. discriminate. }
  assert (K : exists m, p = entries bl W (length (inner_cells row column g)) m /\
    pu = (ways (full (length (inner_cells row column g)) (fun k => k)) (rowsB bl W) (exactly m), worlds_total bl W (length (inner_cells row column g)) m * length (inner_cells row column g))).
  { rewrite (cal_split spec Fb), Ep in E. cbn [bind] in E. destruct spec as [M|k].
    - destruct (Nat.ltb_spec M (flag_count row column g)) as [Hm|Hm].
      + unfold tail_of in E. destruct (mins_ok HW) as [M1 M2]. rewrite M1, M2 in E. cbn [bind] in E. destruct (Nat.ltb_spec M (flag_count row column g)); [discriminate|lia].
      + rewrite (@tail_ok row column g bl W (M - flag_count row column g) (Count M) Fb HW) in E.
        2:{ destruct (Nat.ltb_spec M (flag_count row column g)); [lia|reflexivity]. }
        destruct (_ <? _) in E; [discriminate|]. injection E as <- <- _ _. eauto.
    - destruct (Nat.leb_spec (flag_count row column g) k) as [Hk|Hk].
      + erewrite (@tail_ok row column g bl W _ (Ratio k) Fb HW) in E.
        2:{ unfold usub. destruct (Nat.leb_spec (flag_count row column g) k); [reflexivity|lia]. }
        destruct (_ <? _) in E; [discriminate|]. injection E as <- <- _ _. eauto.
      + unfold tail_of in E. destruct (mins_ok HW) as [M1 M2]. rewrite M1, M2 in E. cbn [bind] in E. unfold usub in E.
        destruct (Nat.leb_spec (flag_count row column g) k); [lia|discriminate]. }
  destruct K as (m & -> & ->). split; [apply inner_le|]. intros q f Hin. unfold entries in Hin. apply in_concat in Hin as (l & Hl & Hin). apply in_map_iff in Hl as (i & <- & _).
  apply in_map_iff in Hin as (q' & Eq & _). injection Eq as _ <-. cbn [fst snd]. apply numer_le. exact (Forall2_len HW).
Qed.

(** the whole board: an error, or fractions that are at most 1 *)
Lemma onboard_cases row column g M : rect row column g -> 0 < row -> small_blocks g -> not_overflagged row column g ->
  (exists e, cal_possibility_onboard g (Count M) = Err e) \/
  exists P range, cal_possibility_onboard g (Count M) = Ok (P, range) /\ forall i j, inb row column (i, j) -> exists f, get P i j = Ok f /\ fst f <= snd f.
Proof.
  intros Hr H0 Hsm Ho. destruct (@C80_onboard row column g (Count M) Hr H0 Hsm Ho) as [KE KO].
  destruct (@C80_total row column g M Hr H0 Hsm Ho) as [E|[E|[E|(p & pu & range & len & E & Nd & Hf)]]].
  1,2,3: left; eexists; apply KE; exact E.
  right. destruct (KO _ _ _ _ E) as (P & EP & _ & K1 & K2 & K3 & K4). destruct (ok_le Hr H0 Hsm Ho E) as [L1 L2]. exists P, range. split; auto. intros i j Hb.
  destruct (Z.eq_dec (cell g (i, j)) 11) as [C|C]; [exists (1, 1); split; [exact (K1 _ Hb C)|cbn; lia]|].
  destruct (Z.eq_dec (cell g (i, j)) 10) as [D|D]; [|exists (0, 1); split; [exact (K4 _ Hb D C)|cbn; lia]].
  destruct (in_dec pos_eq_dec (i, j) (map fst p)) as [Hin|Hin].
  - apply in_map_iff in Hin as ([q f] & Eq & Hin). cbn [fst] in Eq. subst q. exists f. split; [exact (K2 _ _ Hin)|eauto].
  - exists pu. split; auto. apply (K3 _ Hb D). intros Hfr. apply Hin, Hf, Hfr.
Qed.

(** one step of the loop *)
Definition op_body (g : board) (M : nat) (c : pos) (st : option frac * board) (p : pos) : R (option frac * board) :=
  match st with
  | (None, gm) => Ok (None, gm)
  | (Some (a, b), gm) =>
     let* v := get g (fst p) (snd p) in
     if ((v <? 10)%Z && posb p c) || (v =? 11)%Z then Ok (None, gm)
     else if (v =? 12)%Z || (v <? 10)%Z then Ok (Some (a, b), gm)
     else match cal_possibility_onboard gm (Count M) with
          | Ok (P, _) => let* f := get P (fst p) (snd p) in
                         let* d := usub (snd f) (fst f) in
                         let* gm := set gm (fst p) (snd p) 12%Z in
                         Ok (Some (a * d, b * snd f), gm)
          | Err _ => Ok (None, gm)
          | Panic => Panic
          | OutOfFuel => OutOfFuel
          end
  end.
Lemma foldM_ext' {A S} (f h : S -> A -> R S) l : (forall s a, f s a = h s a) -> forall s, foldM f l s = foldM h l s.
Proof. intros H. induction l as [|a l IH]; intros s; cbn [foldM]; auto. rewrite H. destruct (h s a); cbn [bind]; auto. Qed.
Lemma none_stays g M c l : forall h, foldM (op_body g M c) l (None, h) = Ok (None, h).
Proof. induction l as [|p l IH]; intros h; cbn [foldM]; auto. cbn [op_body bind]. apply IH. Qed.

Section Cell.
Variables (row column : nat) (g : board) (M : nat) (c : pos).
Hypothesis Hr : rect row column g.
Hypothesis H0 : 0 < row.
Hypothesis Ho : not_overflagged row column g.
Hypothesis Hc : inb row column c.
Hypothesis Hvals : forall q, inb row column q -> (cell g q <= 12)%Z.
Hypothesis Hsmall : forall h, rect row column h -> (forall q, inb row column q -> cell h q = cell g q \/ cell g q = 10%Z /\ cell h q = 12%Z /\ near c q) -> small_blocks h.
Let Z0 := filter (nearb c) (positions row column).
Let F L := n_worlds_free row column g M L.

Lemma in_Z0 q : In q Z0 <-> inb row column q /\ near c q.
Proof. unfold Z0. rewrite filter_In, in_positions. destruct (nearb_spec c q); intuition discriminate. Qed.
Lemma marked_over L h : marked row column g L h -> not_overflagged row column h.
Proof.
  intros Hm n (Hb & Hn & q & Hq & Hnear & Hcov). pose proof Hm as (_ & H1 & H2).
  assert (E : forall p, (cell h p < 12)%Z -> cell h p = cell g p).
  { intros p Hp. destruct (in_dec pos_eq_dec p L) as [Hi|Hi]; [destruct (H1 p Hi) as (_ & _ & E); lia|auto]. }
  assert (En : cell h n = cell g n) by (apply E; destruct Hn; lia).
  rewrite En. replace (adj_count row column (flaggedb h) n) with (adj_count row column (flaggedb g) n).
  - apply Ho. split; auto. split; [unfold number in *; now rewrite <- En|]. exists q. rewrite <- E by (rewrite Hcov; lia). auto.
  - unfold adj_count. apply count_ext. intros p _. now rewrite (marked_flag Hm).
Qed.
Lemma marked_small L h : incl L Z0 -> marked row column g L h -> small_blocks h.
Proof.
  intros HL (Hrh & H1 & H2). apply Hsmall; auto. intros q Hbq. destruct (in_dec pos_eq_dec q L) as [Hi|Hi]; [right|left; auto].
  destruct (H1 q Hi) as (_ & E1 & E2). split; auto. split; auto. apply HL in Hi. now apply in_Z0 in Hi as [_ Hi].
Qed.
Lemma marked_snoc L h q : marked row column g L h -> inb row column q -> ~ In q L -> cell g q = 10%Z -> marked row column g (L ++ [q]) (upd h q 12%Z).
Proof.
  intros (Hrh & H1 & H2) Hb Hn E10. split; [now apply rect_upd|]. split.
  - intros p Hi. apply in_app_iff in Hi as [Hi|[<-|[]]].
    + destruct (H1 p Hi) as (X1 & X2 & X3). split; auto. split; auto. rewrite cell_upd_neq; auto. intros EE. subst q. contradiction.
    + split; auto. split; auto. eapply cell_upd_eq; eauto.
  - intros p Hi. rewrite in_app_iff in Hi. rewrite cell_upd_neq; [apply H2; tauto|]. intros <-. apply Hi. right. now left.
Qed.

(** the loop always ends normally, the fraction stays below 1 and 0 stays 0 *)
Lemma loop_total todo : forall L h a b, incl todo Z0 -> incl L Z0 -> NoDup todo -> (forall q, In q todo -> ~ In q L) -> marked row column g L h -> a <= b ->
  exists st h', foldM (op_body g M c) todo (Some (a, b), h) = Ok (st, h') /\ match st with None => True | Some (a', b') => a' <= b' /\ (a = 0 -> a' = 0) end.
Proof.
  induction todo as [|q todo IH]; intros L h a b Hinc HL Nd Hdis Hm Hab.
  - exists (Some (a, b)), h. split; [reflexivity|]. auto.
  - inversion Nd as [|? ? Hn Nd']; subst. pose proof (Hinc q (or_introl eq_refl)) as Hq. apply in_Z0 in Hq as [Hb Hnear].
    pose proof Hm as (Hrh & H1 & H2). pose proof (Hvals Hb) as Hle.
    assert (Hqg : cell h q = cell g q) by (apply H2, Hdis; now left).
    assert (IHt : forall h', marked row column g L h' -> forall a b, a <= b -> exists st h2, foldM (op_body g M c) todo (Some (a, b), h') = Ok (st, h2) /\ match st with None => True | Some (a', b') => a' <= b' /\ (a = 0 -> a' = 0) end).
    { intros h' Hm' a1 b1 Hab1. apply (IH L); auto; [intros p Hp; apply Hinc; now right|intros p Hp; apply Hdis; now right]. }
    cbn [foldM op_body]. rewrite (get_ok Hr Hb). rewrite <- surjective_pairing. cbn [bind]. rewrite <- Hqg.
    destruct (((cell h q <? 10)%Z && posb q c) || (cell h q =? 11)%Z) eqn:Ef; [cbn [bind]; rewrite none_stays; exists None, h; auto|].
    destruct ((cell h q =? 12)%Z || (cell h q <? 10)%Z) eqn:Eo; [cbn [bind]; apply IHt; auto|].
    assert (E10 : cell g q = 10%Z).
    { apply orb_false_iff in Ef as [_ Ef]. apply orb_false_iff in Eo as [Eo1 Eo2]. apply Z.eqb_neq in Ef, Eo1. apply Z.ltb_ge in Eo2. lia. }
    destruct (onboard_cases M Hrh H0 (marked_small HL Hm) (marked_over Hm)) as [(e & E)|(P & range & E & HP)]; rewrite E; [cbn [bind]; rewrite none_stays; exists None, h; auto|].
    destruct q as [i j]. destruct (HP i j Hb) as (f & Ef' & Hf). cbn [fst snd]. rewrite Ef'. cbn [bind]. unfold usub. destruct (Nat.leb_spec (fst f) (snd f)); [|lia]. cbn [bind].
    rewrite (set_ok _ Hrh Hb). cbn [bind].
    destruct (IH (L ++ [(i, j)]) (upd h (i, j) 12%Z) (a * (snd f - fst f)) (b * snd f)) as (st & h' & E' & Hst).
    + intros p Hp. apply Hinc. now right.
    + intros p Hp. apply in_app_iff in Hp as [Hp|[<-|[]]]; [auto|apply Hinc; now left].
    + exact Nd'.
    + intros p Hi Hi2. apply in_app_iff in Hi2 as [Hi2|[<-|[]]]; [apply (Hdis p); auto; now right|contradiction].
    + apply marked_snoc; auto. apply Hdis. now left.
    + apply Nat.mul_le_mono; lia.
    + exists st, h'. split; [exact E'|]. destruct st as [[a' b']|]; auto. destruct Hst as [S1 S2]. split; auto. intros ->. apply S2. reflexivity.
Qed.

(** Its value: exact as long as an opening is possible, then 0. *)
Lemma loop_exact todo : satisfiable row column g -> proper row column g -> (10 <= cell g c)%Z ->
  forall L h a b, incl todo Z0 -> incl L Z0 -> NoDup todo -> (forall q, In q todo -> ~ In q L) -> marked row column g L h ->
  a <= b -> F L <> 0 -> is_prob (a, b) (F L) (F []) ->
  exists st h', foldM (op_body g M c) todo (Some (a, b), h) = Ok (st, h') /\
    match st with
    | None => F Z0 = 0
    | Some (a', b') => (a' = 0 /\ F Z0 = 0) \/
        (exists L', is_prob (a', b') (F L') (F []) /\ incl L' Z0 /\ (forall q, In q todo -> cell g q <> 11%Z) /\
           forall q, In q Z0 -> cell g q = 10%Z -> In q todo \/ In q L -> In q L')
    end.
Proof.
  intros Hsat Hprop Hopen. induction todo as [|q todo IH]; intros L h a b Hinc HL Nd Hdis Hm Hab HF Hp.
  - exists (Some (a, b)), h. split; [reflexivity|]. right. exists L. split; auto. split; auto. split; [intros q []|]. intros q _ _ [[]|H]. exact H.
  - inversion Nd as [|? ? Hn Nd']; subst. pose proof (Hinc q (or_introl eq_refl)) as HqZ. pose proof HqZ as Hq. apply in_Z0 in Hq as [Hb Hnear].
    pose proof Hm as (Hrh & H1 & H2). pose proof (Hvals Hb) as Hle. pose proof (Hprop q Hb) as Hge.
    assert (HLq : ~ In q L) by (apply Hdis; now left).
    assert (Hqg : cell h q = cell g q) by now apply H2.
    assert (Hinc' : incl todo Z0) by (intros p Hi; apply Hinc; now right).
    cbn [foldM op_body]. rewrite (get_ok Hr Hb). rewrite <- surjective_pairing. cbn [bind].
    assert (Eopen : (cell g q <? 10)%Z && posb q c = false).
    { destruct (posb_spec q c) as [Ec|]; [|now rewrite andb_false_r]. subst c. destruct (Z.ltb_spec (cell g q) 10); auto. lia. }
    rewrite Eopen. cbn [orb]. destruct (Z.eqb_spec (cell g q) 11) as [E11|N11].
    { cbn [bind]. rewrite none_stays. exists None, h. split; auto. unfold F, n_worlds_free. rewrite count_b1. apply sumn_zero. intros s _.
      replace (forallb _ Z0) with false; [now rewrite andb_false_r|]. symmetry. apply not_true_iff_false. rewrite forallb_forall. intros H. specialize (H q HqZ).
      unfold with_flags, flaggedb in H. rewrite E11 in H. discriminate H. }
    destruct (Z.eq_dec (cell g q) 10) as [E10|N10].
    + rewrite E10. cbn [Z.eqb Z.ltb Z.compare Pos.eqb Pos.compare Pos.compare_cont orb].
      assert (EF : n_worlds row column h M = F L) by (rewrite <- free_nil, (marked_free Hm), app_nil_r; reflexivity).
      destruct (free_pos HF) as (s0 & Hs0 & Hw0 & Hf0).
      assert (Hsh : satisfiable row column h).
      { split; auto. split; auto. exists (with_flags h s0). apply (@consistentb_iff row column h (with_flags h s0)). change (explains row column h s0 = true).
        rewrite (marked_explains Hm). - unfold worldb in Hw0. now apply andb_true_iff in Hw0 as [? _].
        - intros p HpL. specialize (Hf0 p HpL). unfold with_flags in Hf0. now apply orb_false_iff in Hf0 as [_ ?]. }
      assert (Hph : proper row column h).
      { intros p Hbp. destruct (in_dec pos_eq_dec p L) as [Hi|Hi]; [destruct (H1 p Hi) as (_ & _ & ->); lia|rewrite (H2 p Hi); auto]. }
      destruct (@C33_onboard_partial row column h M M Hsh Hph (marked_small HL Hm) (le_n _)) as (P & range & EP & _ & HP); [rewrite EF; exact HF|].
      destruct q as [i j]. destruct (HP i j Hb) as (f & Ef & Hpf). rewrite EP. cbn [fst snd]. rewrite Ef. cbn [bind]. destruct Hpf as [F1 F2]. rewrite EF in F1, F2.
      pose proof (free_one row column h M (i, j)) as FO. rewrite EF, (marked_free Hm) in FO. fold (F (L ++ [(i, j)])) in FO. specialize (F2 HF).
      assert (Hfle : fst f <= snd f) by nia.
      unfold usub. destruct (Nat.leb_spec (fst f) (snd f)); [|lia]. cbn [bind]. rewrite (set_ok _ Hrh Hb). cbn [bind].
      assert (D : (snd f - fst f) * F L = F (L ++ [(i, j)]) * snd f) by (rewrite Nat.mul_sub_distr_r; nia).
      assert (HL' : incl (L ++ [(i, j)]) Z0) by (intros p Hi; apply in_app_iff in Hi as [Hi|[<-|[]]]; auto).
      assert (Hdis' : forall p, In p todo -> ~ In p (L ++ [(i, j)])).
      { intros p Hi Hi2. apply in_app_iff in Hi2 as [Hi2|[<-|[]]]; [apply (Hdis p); auto; now right|contradiction]. }
      assert (Hm' : marked row column g (L ++ [(i, j)]) (upd h (i, j) 12%Z)) by (apply marked_snoc; auto).
      assert (Hab' : a * (snd f - fst f) <= b * snd f) by (apply Nat.mul_le_mono; lia).
      destruct (Nat.eq_dec (F (L ++ [(i, j)])) 0) as [HF'|HF'].
      * assert (HZ : F Z0 = 0) by (pose proof (free_le row column g M HL'); unfold F in *; lia).
        destruct (@loop_total todo (L ++ [(i, j)]) (upd h (i, j) 12%Z) (a * (snd f - fst f)) (b * snd f)) as (st & h' & E & Hst); auto.
        exists st, h'. split; [exact E|]. destruct st as [[a' b']|]; auto. left. split; auto. apply Hst. rewrite HF' in D. cbn [Nat.mul] in D. apply Nat.eq_mul_0 in D as [D|D]; [rewrite D; lia|contradiction].
      * destruct (IH (L ++ [(i, j)]) (upd h (i, j) 12%Z) (a * (snd f - fst f)) (b * snd f)) as (st & h' & E & Hst); auto.
        -- destruct Hp as [P1 P2]. cbn [fst snd] in P1, P2. split; cbn [fst snd].
           ++ set (N := F []) in *. set (FL := F L) in *. set (F' := F (L ++ [(i, j)])) in *.
              transitivity ((a * N) * (snd f - fst f)); [lia|]. rewrite P1. transitivity (((snd f - fst f) * FL) * b); [lia|]. rewrite D. lia.
           ++ intros HN. specialize (P2 HN). nia.
        -- exists st, h'. split; [exact E|]. destruct st as [[a' b']|]; auto. destruct Hst as [Hst|(L' & X1 & X2 & X3 & X4)]; auto. right. exists L'. split; auto. split; auto. split.
           ++ intros p [<-|Hi]; auto.
           ++ intros p Y1 Y2 [[<-|Y3]|Y3]; apply X4; auto; right; apply in_app_iff; [right; now left|now left].
    + assert (Eother : (cell g q =? 12)%Z || (cell g q <? 10)%Z = true).
      { destruct (Z.eqb_spec (cell g q) 12), (Z.ltb_spec (cell g q) 10); auto. lia. }
      rewrite Eother. cbn [bind].
      destruct (IH L h a b) as (st & h' & E & Hst); auto.
      * intros p Hi. apply Hdis. now right.
      * exists st, h'. split; [exact E|]. destruct st as [[a' b']|]; auto. destruct Hst as [Hst|(L' & X1 & X2 & X3 & X4)]; auto. right. exists L'. split; auto. split; auto. split.
        -- intros p [<-|Hi]; auto.
        -- intros p Y1 Y2 [[<-|Y3]|Y3]; auto. contradiction.
Qed.

Lemma op_unfold : op_possibility g (Count M) c =
  let* (st, _) := foldM (op_body g M c) (zone row column (fst c) (snd c)) (Some (1, 1), g) in Ok (match st with None => (0, 1) | Some f => f end).
Proof.
  unfold op_possibility. rewrite (nrows_ok Hr), (ncolsR_ok Hr H0). cbn [bind].
  rewrite (@foldM_ext' _ _ _ (op_body g M c)); [reflexivity|]. intros [[[a b]|] gm] [m n]; [|reflexivity]. reflexivity.
Qed.
Lemma zone_Z0 : incl (zone row column (fst c) (snd c)) Z0.
Proof. intros q Hq. apply in_zone in Hq as [Hq Hn]. rewrite <- surjective_pairing in Hn. apply in_Z0. auto. Qed.
Lemma Z0_zone : incl Z0 (zone row column (fst c) (snd c)).
Proof. intros q Hq. apply in_Z0 in Hq as [Hq Hn]. apply in_zone. rewrite <- surjective_pairing. auto. Qed.
Lemma marked_none : marked row column g [] g.
Proof. split; auto. split; [intros q []|auto]. Qed.
End Cell.

Lemma satisfiable_flags row column g : satisfiable row column g -> not_overflagged row column g.
Proof. intros (_ & _ & m & Hm) n Hn. pose proof (consistent_front Hm Hn) as E. unfold number_ok in E. lia. Qed.

(** C65, every position. The function always answers, with 0/0 or a fraction that is at most 1, even if
    the numbers contradict each other. *)
Theorem C65_total_partial : forall row column g M c, rect row column g -> 0 < row -> not_overflagged row column g ->
  (forall q, inb row column q -> (cell g q <= 12)%Z) ->
  (forall h, rect row column h -> (forall q, inb row column q -> cell h q = cell g q \/ cell g q = 10%Z /\ cell h q = 12%Z /\ near c q) -> small_blocks h) ->
  exists f, op_possibility g (Count M) c = Ok f /\ fst f <= snd f.
Proof.
  intros row column g M c Hr H0 Ho Hvals Hsmall. rewrite (op_unfold M c Hr H0).
  destruct (@loop_total row column g M c Hr H0 Ho Hvals Hsmall (zone row column (fst c) (snd c)) [] g 1 1) as (st & h' & E & Hst); auto.
  - exact (@zone_Z0 row column g M c). - intros q []. - apply NoDup_zone. - now apply marked_none.
  - rewrite E. cbn [bind]. eexists. split; [reflexivity|]. destruct st as [[a b]|]; [apply Hst|cbn; lia].
Qed.
Print Assumptions C65_total_partial.

(** C65, every position that has an explanation with [M] mines and every closed cell. If an opening is
    possible the value is its probability; if it is not, the value is 0 or 0/0, that is NaN. *)
Theorem C65_exact_partial : forall row column g M c, satisfiable row column g -> proper row column g -> inb row column c -> (10 <= cell g c)%Z ->
  (forall q, inb row column q -> (cell g q <= 12)%Z) ->
  (forall h, rect row column h -> (forall q, inb row column q -> cell h q = cell g q \/ cell g q = 10%Z /\ cell h q = 12%Z /\ near c q) -> small_blocks h) ->
  n_worlds row column g M <> 0 ->
  exists a b, op_possibility g (Count M) c = Ok (a, b) /\
    let free := n_worlds_free row column g M (filter (nearb c) (positions row column)) in
    (free <> 0 -> is_prob (a, b) free (n_worlds row column g M)) /\ (free = 0 -> a = 0).
Proof.
  intros row column g M c Hsat Hprop Hc Hopen Hvals Hsmall HN. pose proof Hsat as (Hr & H0 & _). pose proof (satisfiable_flags Hsat) as Ho.
  rewrite (op_unfold M c Hr H0).
  destruct (@loop_exact row column g M c Hr H0 Ho Hc Hvals Hsmall (zone row column (fst c) (snd c)) Hsat Hprop Hopen [] g 1 1) as (st & h' & E & Hst); auto.
  - exact (@zone_Z0 row column g M c). - intros q []. - apply NoDup_zone. - now apply marked_none.
  - rewrite free_nil. exact HN.
  - split; cbn; lia.
  - rewrite E. cbn [bind]. destruct st as [[a b]|]; [|exists 0, 1; split; [reflexivity|]; split; [intros Hx; contradiction|auto]].
    exists a, b. split; [reflexivity|]. set (Z0 := filter (nearb c) (positions row column)) in *. cbv zeta.
    destruct Hst as [[-> Hf]|(L' & Hp & HL & Hnf & Hcov)]; [split; [intros Hx; contradiction|auto]|].
    assert (EF : n_worlds_free row column g M L' = n_worlds_free row column g M Z0).
    { unfold n_worlds_free. apply count_ext. intros s Hs. f_equal. apply eq_true_iff_eq. rewrite !forallb_forall. split; intros H q Hq; [|apply H; auto].
      assert (Hz : In q (zone row column (fst c) (snd c))) by (exact (@Z0_zone row column g M c q Hq)).
      destruct (Z.eq_dec (cell g q) 10) as [E10|N10]; [apply H, Hcov; auto|].
      unfold with_flags, flaggedb, mines_at. destruct (Z.eqb_spec (cell g q) 11) as [E11|_]; [destruct (Hnf q Hz E11)|]. cbn [orb].
      rewrite mem_false; auto. intros Hi. apply (subs_incl Hs) in Hi. unfold covered_cells in Hi. apply filter_In in Hi as [_ Hi]. unfold coveredb in Hi. apply Z.eqb_eq in Hi. contradiction. }
    rewrite EF, free_nil in Hp. split; [auto|]. intros Hz. destruct Hp as [P1 _]. cbn [fst snd] in P1. rewrite Hz in P1. cbn [Nat.mul] in P1. apply Nat.eq_mul_0 in P1 as [|]; [auto|contradiction].
Qed.
Print Assumptions C65_exact_partial.

(** at most 55 covered cells *)
Lemma marked_few row column g c : rect row column g -> 0 < row -> length (covered_cells row column g) <= 55 ->
  forall h, rect row column h -> (forall q, inb row column q -> cell h q = cell g q \/ cell g q = 10%Z /\ cell h q = 12%Z /\ near c q) -> small_blocks h.
Proof.
  intros Hrg H0 Hl h Hr Hh. apply (few_covered_small Hr H0). refine (Nat.le_trans _ _ _ _ Hl). apply NoDup_incl_length; [apply NoDup_filter, NoDup_positions|].
  unfold covered_cells. intros q Hq. apply filter_In in Hq as [A1 A2]. apply filter_In. split; auto. apply in_positions in A1. unfold coveredb in *. apply Z.eqb_eq in A2.
  destruct (Hh q A1) as [E|(E & _)]; apply Z.eqb_eq; congruence.
Qed.
(** a list of cells: always answered *)
Theorem C65_cells_total : forall row column g M cells, rect row column g -> 0 < row -> not_overflagged row column g ->
  (forall q, inb row column q -> (cell g q <= 12)%Z) -> length (covered_cells row column g) <= 55 ->
  exists l, cal_is_op_possibility_cells g (Count M) cells = Ok l /\ length l = length cells.
Proof.
  intros row column g M cells Hr H0 Ho Hvals Hl. unfold cal_is_op_possibility_cells. induction cells as [|c cells IH]; cbn [mapM].
  - exists []. auto.
  - destruct (@C65_total_partial row column g M c Hr H0 Ho Hvals (@marked_few row column g c Hr H0 Hl)) as (f & E & _). rewrite E. cbn [bind].
    destruct IH as (l & El & L). rewrite El. cbn [bind]. exists (f :: l). split; auto. cbn. congruence.
Qed.
Print Assumptions C65_cells_total.
(** Both cases of the last theorem: one neighbour must be a mine (the answer is 0), and the chain of
    probabilities ends in 0/0. *)
Example C65_case_zero : satisfiable 1 3 [[1; 10; 10]]%Z /\ n_worlds 1 3 [[1; 10; 10]]%Z 1 = 1 /\
  n_worlds_free 1 3 [[1; 10; 10]]%Z 1 (filter (nearb (0, 2)) (positions 1 3)) = 0 /\ op_possibility [[1; 10; 10]]%Z (Count 1) (0, 2) = Ok (0, 1) /\
  op_possibility [[1; 10; 10]]%Z (Count 2) (0, 2) = Ok (0, 0).
Proof.
  split; [apply (@PropsSolver.satisfiable_ok 1 3 _ (fun p => posb p (0, 1))); [split; [reflexivity|repeat constructor]|lia|reflexivity]|].
  vm_compute. repeat split.
Qed.
Example C65_case_contradiction : not_overflagged 2 2 [[1; 2]; [10; 10]]%Z /\ op_possibility [[1; 2]; [10; 10]]%Z (Count 1) (1, 0) = Ok (0, 1).
Proof. split; [apply C80_case_contradiction|vm_compute; reflexivity]. Qed.
