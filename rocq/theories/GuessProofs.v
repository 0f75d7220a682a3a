(** * GuessProofs: [find_a_border_cell] and the groups of [refresh_matrixses]. *)
From Verif Require Import Base Spec BaseFacts Matrix Solve SolverSpec MatrixProofs LinFacts DirectProofs
  ChunkProofs SolveProofs EnumProofs EnumSolve PosProofs MatrixMeaning Blocks BlocksProofs Guess GuessSpec.
Open Scope Z_scope.

Section F.
Variables (row column : nat) (g : board) (xy : pos).
Hypothesis Hrect : rect row column g.
Hypothesis Hle : forall p, inb row column p -> cell g p <= 10.
Hypothesis Hxy : inb row column xy.
Hypothesis Hc : cell g xy = 10.

Definition openp (q : pos) : Prop := exists n, inb row column n /\ near q n /\ cell g n < 10.
Definition openb (q : pos) : bool := existsb (fun n => cell g n <? 10) (zone row column (fst q) (snd q)).
Lemma openb_spec q : inb row column q -> openb q = true <-> openp q.
Proof.
  intros Hq. unfold openb, openp. rewrite existsb_exists. split.
  - intros (n & Hn & Hb). destruct n as [a b]. apply in_zone in Hn as [H1 H2]. exists (a, b). split; auto. split; [destruct q; exact H2|]. now apply Z.ltb_lt.
  - intros (n & H1 & H2 & H3). exists n. split; [|now apply Z.ltb_lt]. destruct n as [a b], q as [c d]. apply in_zone. auto.
Qed.
(** the marked board *)
Record seen (bd : board) : Prop := {
  se_rect : rect row column bd;
  se_cell : forall q, inb row column q -> cell bd q = cell g q \/ cell g q = 10 /\ cell bd q = 100 /\ same_region row column g xy q /\ ~ openp q
}.
Lemma seen_lt bd q : seen bd -> inb row column q -> (cell bd q <? 10) = (cell g q <? 10).
Proof. intros [_ H] Hq. destruct (H q Hq) as [E|(E1 & E2 & _)]; [now rewrite E|]. now rewrite E1, E2. Qed.
Lemma open_around_ok bd q : seen bd -> inb row column q -> open_around bd row column (fst q) (snd q) = Ok (openb q).
Proof.
  intros Hs Hq. unfold open_around, openb. apply findM_ok. intros [m n] Hz. destruct q as [a b]. apply in_zone in Hz as [H1 _].
  rewrite (get_ok (se_rect Hs) H1). cbn [bind]. now rewrite (seen_lt Hs H1).
Qed.
Lemma seen_set bd q : seen bd -> inb row column q -> cell bd q = 10 -> same_region row column g xy q -> ~ openp q ->
  seen (upd bd q 100) /\ (c10 row column (upd bd q 100%Z) + 1 = c10 row column bd)%nat.
Proof.
  intros [Hr Hs] Hq E Hsr Ho. assert (Hg : cell g q = 10) by (destruct (Hs q Hq) as [E1|(E1 & _)]; congruence). split; [constructor; [now apply rect_upd|]|].
  - intros p Hp. rewrite (cell_upd p 100 Hr Hq). destruct (pos_eq_dec q p) as [<-|Hn].
    + right. rewrite posb_refl. auto.
    + rewrite posb_neq by auto. auto.
  - unfold c10.
    pose proof (@count_point _ pos_eq_dec (fun p => cell bd p =? 10) (fun p => cell (upd bd q 100) p =? 10) (positions row column) q) as H.
    cbn beta in H. rewrite (cell_upd_eq _ Hr Hq), E in H. change (10 =? 10) with true in H. change (100 =? 10) with false in H.
    cbn [Nat.add] in H. rewrite Nat.add_0_r in H. symmetry. apply H; [apply NoDup_positions|now apply in_positions|].
    intros x Hx. now rewrite cell_upd_neq by auto.
Qed.
Definition visited (bd : board) (q : pos) : Prop := inb row column q /\ cell bd q = 100.
Definition closed (bd : board) (q : pos) : Prop := forall r, inb row column r -> near q r -> cell g r = 10 -> visited bd r.

Lemma visited_upd bd q r : seen bd -> inb row column q -> visited bd r -> visited (upd bd q 100) r.
Proof.
  intros Hs Hq [H1 H2]. split; auto. rewrite (cell_upd r 100 (se_rect Hs) Hq). destruct (posb q r); auto.
Qed.
Lemma closed_upd bd q r : seen bd -> inb row column q -> closed bd r -> closed (upd bd q 100) r.
Proof. intros Hs Hq H p H1 H2 H3. apply visited_upd; auto. Qed.

Lemma search_ok fuel : forall bd buffer, seen bd -> Forall (visited bd) buffer -> visited bd xy ->
  (forall q, visited bd q -> ~ In q buffer -> closed bd q) -> (c10 row column bd + length buffer <= fuel)%nat ->
  exists o, border_search fuel row column bd buffer = Ok o /\
    match o with
    | Some c => inb row column c /\ cell g c = 10 /\ same_region row column g xy c /\ openp c
    | None => forall c, same_region row column g xy c -> ~ openp c
    end.
Proof.
  induction fuel as [|fuel IH]; intros bd [|[i j] buffer] Hs Hb Hv Hcl Hf; cbn [border_search length] in *; try lia.
  1,2: exists None; split; auto;
    assert (K : forall c, same_region row column g xy c -> visited bd c) by
      (induction 1 as [|q r Hq IHq H1 H2 H3]; auto; apply (Hcl q IHq); auto);
    intros c Hc1; destruct (K c Hc1) as [H1 H2]; destruct (se_cell Hs H1) as [E|(_ & _ & _ & E)]; auto;
    exfalso; specialize (Hle H1); lia.
  inversion Hb as [|x l Hij Hb']; subst.
  match goal with |- context [foldM ?F ?l ?s] =>
    destruct (@foldM_inv _ _ F (fun done st => let '(bd', buffer', found) := st in seen bd' /\ Forall (visited bd') buffer' /\ visited bd' xy /\ visited bd' (i, j) /\
       (c10 row column bd' + length buffer' <= fuel)%nat /\
       (forall q, visited bd' q -> ~ In q buffer' -> q <> (i, j) -> closed bd' q) /\
       match found with
       | Some c => inb row column c /\ cell g c = 10 /\ same_region row column g xy c /\ openp c
       | None => forall q, In q done -> cell g q = 10 -> visited bd' q
       end) l s) as ([[bd' buffer'] found] & E & H1 & H2 & H3 & H4 & H5 & H6 & H7) end.
  - split; [exact Hs|]. split; [exact Hb'|]. split; auto. split; auto. split; [lia|]. split; [|intros q []].
    intros q Hq Hn Hne. apply Hcl; auto. intros [H|H]; auto.
  - intros done [m n] rest [[b' bu'] fo] El (H1 & H2 & H3 & H4 & H5 & H6 & H7).
    assert (Hz : In (m, n) (zone row column i j)) by (rewrite El; apply in_app_iff; right; now left).
    apply in_zone in Hz as [Hmn Hnear].
    destruct fo as [c|]; [eexists; split; [reflexivity|]; repeat (split; [assumption|]); assumption|].
    destruct (posb_spec (i, j) (m, n)) as [Eij|Nij].
    { eexists. split; [reflexivity|]. split; auto. split; auto. split; auto. split; auto. split; auto. split; auto.
      intros q Hq Hq10. apply in_app_iff in Hq as [Hq|[<-|[]]]; auto. rewrite <- Eij. exact H4. }
    rewrite (get_ok (se_rect H1) Hmn). cbn [bind]. destruct (Z.eqb_spec (cell b' (m, n)) 10) as [E|E].
    + assert (Hg : cell g (m, n) = 10) by (destruct (se_cell H1 Hmn) as [E1|(E1 & _)]; congruence).
      assert (Hreg : same_region row column g xy (m, n)).
      { apply (@sr_step _ _ _ _ (i, j)); auto. destruct H4 as [G1 G2]. destruct (se_cell H1 G1) as [E1|(_ & _ & E1 & _)]; auto. specialize (Hle G1). lia. }
      change (open_around b' row column m n) with (open_around b' row column (fst (m, n)) (snd (m, n))). rewrite (open_around_ok H1 Hmn). cbn [bind].
      destruct (openb (m, n)) eqn:Eo.
      * eexists. split; [reflexivity|]. split; auto. split; auto. split; auto. split; auto. split; auto. split; auto. split; auto. split; auto. split; auto. now apply openb_spec.
      * assert (Ho : ~ openp (m, n)) by (intros Ho; apply openb_spec in Ho; auto; congruence).
        rewrite (set_ok _ (se_rect H1) Hmn). cbn [bind]. eexists. split; [reflexivity|]. destruct (seen_set H1 Hmn E Hreg Ho) as [G1 G2].
        assert (Gv : visited (upd b' (m, n) 100) (m, n)) by (split; auto; now rewrite (cell_upd_eq _ (se_rect H1) Hmn)).
        split; auto. split; [constructor; auto; eapply Forall_impl; [|exact H2]; intros q Hq; now apply visited_upd|].
        split; [now apply visited_upd|]. split; [now apply visited_upd|]. split; [cbn [length]; lia|]. split.
        -- intros q Hq Hn Hne. apply closed_upd; auto. apply H6; auto; [|intros Hq'; apply Hn; now right].
           destruct Hq as [Q1 Q2]. split; auto. rewrite (cell_upd q 100 (se_rect H1) Hmn) in Q2. destruct (posb_spec (m, n) q) as [<-|Hd]; auto. exfalso. apply Hn. now left.
        -- intros q Hq Hq10. apply in_app_iff in Hq as [Hq|[<-|[]]]; auto. apply visited_upd; auto.
    + eexists. split; [reflexivity|]. split; auto. split; auto. split; auto. split; auto. split; auto. split; auto.
      intros q Hq Hq10. apply in_app_iff in Hq as [Hq|[<-|[]]]; auto. split; auto. destruct (se_cell H1 Hmn) as [E1|(_ & E1 & _)]; auto. congruence.
  - rewrite E. cbn [bind]. destruct found as [c|]; [eauto|]. apply IH; auto. intros q Hq Hn.
    destruct (pos_eq_dec q (i, j)) as [->|Hne]; auto. intros r R1 R2 R3. apply H7; auto. destruct r as [a b]. apply in_zone. auto.
Qed.
Theorem find_border_ok : (0 < row)%nat -> exists o b, find_a_border_cell g xy = Ok (o, b) /\
  (b = true -> o = Some xy /\ openp xy) /\
  (b = false -> ~ openp xy /\
    match o with
    | Some c => inb row column c /\ cell g c = 10 /\ same_region row column g xy c /\ openp c
    | None => forall c, same_region row column g xy c -> ~ openp c
    end).
Proof.
  intros Hrow. unfold find_a_border_cell. rewrite (nrows_ok Hrect), (ncolsR_ok Hrect Hrow). cbn [bind].
  assert (Hs : seen g) by (constructor; auto). rewrite (open_around_ok Hs Hxy). cbn [bind]. destruct (openb xy) eqn:Eo.
  { exists (Some xy), true. split; auto. split; [intros _; split; auto; now apply openb_spec|discriminate]. }
  assert (Ho : ~ openp xy) by (intros Ho; apply openb_spec in Ho; auto; congruence).
  assert (Es : set g (fst xy) (snd xy) 100 = Ok (upd g xy 100)) by (destruct xy; apply (set_ok _ Hrect Hxy)). rewrite Es. cbn [bind].
  destruct (seen_set Hs Hxy Hc (@sr_refl _ _ _ _) Ho) as [G1 G2].
  assert (Gv : visited (upd g xy 100) xy) by (split; auto; now rewrite (cell_upd_eq _ Hrect Hxy)).
  destruct (@search_ok (row * column) (upd g xy 100) [xy]) as (o & E & H); auto.
  - intros q [Q1 Q2] Hn. exfalso. rewrite (cell_upd q 100 Hrect Hxy) in Q2. destruct (posb_spec xy q) as [->|Hd]; [apply Hn; now left|]. specialize (Hle Q1). lia.
  - cbn [length]. pose proof (count_le (fun q => cell g q =? 10) (positions row column)) as L. rewrite length_positions in L. unfold c10 in *. lia.
  - rewrite E. cbn [bind]. exists o, false. split; auto. split; [discriminate|]. auto.
Qed.
End F.

(** ** the groups of [refresh_matrixses] *)
Lemma NoDup_concat_eq (bl : list block) B B' q : NoDup (concat (map vars bl)) -> In B bl -> In B' bl -> In q (vars B) -> In q (vars B') -> B = B'.
Proof.
  induction bl as [|A bl IH]; [intros _ []|]. cbn [map concat]. intros Nd HB HB' Hq Hq'.
  assert (K : forall C, In C bl -> In q (vars C) -> In q (concat (map vars bl))) by (intros C HC HqC; apply in_vars; eauto).
  destruct HB as [->|HB], HB' as [->|HB']; auto.
  - exfalso. apply (@NoDup_app_not_in _ _ _ q Nd Hq). eauto.
  - exfalso. apply (@NoDup_app_not_in _ _ _ q Nd Hq'). eauto.
  - apply NoDup_app_r in Nd. auto.
Qed.
Lemma live_vars bl : Forall (fun B => eqs B = [] -> vars B = []) bl -> concat (map vars (live bl)) = concat (map vars bl).
Proof.
  induction 1 as [|B bl HB F IH]; auto. unfold live in *. cbn [filter map concat]. unfold liveb at 1. destruct (eqs B); cbn [map concat]; rewrite IH; auto. now rewrite HB.
Qed.
Lemma In_group (ses : list (list block)) grp B : In grp ses -> In B grp -> In B (concat ses).
Proof. intros H1 H2. apply in_concat. eauto. Qed.
Lemma NoDup_group (ses : list (list block)) grp : In grp ses -> NoDup (concat (map vars (concat ses))) -> NoDup (concat (map vars grp)).
Proof.
  intros H. apply in_split in H as (a & b & ->). rewrite concat_app. cbn [concat]. rewrite !map_app, !concat_app. intros Nd. apply NoDup_app_r in Nd. now apply NoDup_app_l in Nd.
Qed.

Section L.
Variables (row column : nat) (g : board).
Hypothesis Hrect : rect row column g.
Hypothesis Hrow : (0 < row)%nat.
Hypothesis Hpos : forall p, inb row column p -> 0 <= cell g p.

Theorem refresh_groups : exists ses, refresh_matrixses g = Ok ses /\
  Forall (Forall (pre_block row column)) ses /\ Forall (fun grp => grp <> []) ses /\
  NoDup (concat (map vars (concat ses))) /\
  (forall q, In q (concat (map vars (concat ses))) <-> front_cell row column g q) /\
  (forall v, sats v (concat ses) <-> forall n, front_number row column g n -> number_ok row column g v n) /\
  (forall grp p q, In grp ses -> In p (concat (map vars grp)) -> linked row column g p q -> In q (concat (map vars grp))).
Proof.
  destruct (refresh_matrixses_ok Hrect Hrow Hpos) as (bl & k1 & k2 & ses & E & Es & Hg & Hp & Nd & Hc & Hs & P & F). exists ses.
  destruct (refresh_matrixs_partition Hrect Hrow) as (bl' & k1' & k2' & numss & E' & FD & _ & Hnum & _). rewrite E in E'. injection E' as <- _ _.
  assert (Hfrom : forall B, In B (concat ses) -> from bl B).
  { intros B HB. apply in_concat in HB as (grp & H1 & H2). rewrite Forall_forall in F. destruct (F grp H1) as [F1 _]. rewrite Forall_forall in F1. auto. }
  assert (Hv : Permutation (concat (map vars (concat ses))) (concat (map vars bl))).
  { rewrite <- live_vars; [now rewrite P|]. apply Forall_forall. intros B HB H0. destruct (Hfrom B HB) as [H|H]; [|now subst].
    rewrite Forall_forall in Hg. destruct (Hg B H) as [_ H1]. contradiction. }
  split; auto. split; [|split; [|split; [|split; [|split]]]].
  - apply Forall_forall. intros grp Hgrp. apply Forall_forall. intros B HB. destruct (Hfrom B (In_group Hgrp HB)) as [H|H]; [rewrite Forall_forall in Hp; auto|]. subst B.
    constructor; cbn [vars eqs].
    all: try (constructor; fail).
    all: try (intros q []; fail).
  - eapply Forall_impl; [|exact F]. intros grp (_ & B & rest & -> & _). discriminate.
  - eapply Permutation_NoDup; [symmetry; exact Hv|exact Nd].
  - intros q. rewrite <- Hc. split; apply Permutation_in; auto. now symmetry.
  - intros v. rewrite <- Hs. rewrite <- sats_live. unfold sats. split; apply Permutation_Forall; auto. now symmetry.
  - intros grp p q Hgrp Hpg. apply in_vars in Hpg as (B & HB & HpB).
    assert (HBbl : In B bl) by (destruct (Hfrom B (In_group Hgrp HB)) as [H|H]; auto; subst B; destruct HpB).
    intros Hl. apply in_vars. exists B. split; auto. induction Hl as [|q r n Hl IH Hn Hnq Hnr Hr Hr10]; auto.
    apply Hnum in Hn. apply in_concat in Hn as (ns & Hns & Hn).
    destruct (Forall2_in_l FD Hns) as (B' & HB' & D). pose proof (proj1 (proj2 D)) as Hv'.
    assert (HqB' : In q (vars B')).
    { apply Hv'. assert (Hf : front_cell row column g q) by (apply Hc; apply in_vars; eauto). destruct Hf as (A1 & A2 & _). eauto. }
    rewrite (NoDup_concat_eq Nd HBbl HB' IH HqB'). apply Hv'. eauto.
Qed.
Theorem group_determined ses m0 : refresh_matrixses g = Ok ses -> consistent row column g m0 ->
  forall grp p b, In grp ses -> In p (concat (map vars grp)) ->
  ((forall v, sats v grp -> v p = b) <-> determined row column g p b).
Proof.
  intros E0 H0 grp p b Hgrp Hp. destruct refresh_groups as (ses' & E & Hpre & _ & Nd & Hc & Hs & _). rewrite E0 in E. injection E as <-.
  assert (Hf : front_cell row column g p).
  { apply Hc. apply in_vars in Hp as (B & HB & HpB). apply in_vars. exists B. split; auto. now apply (In_group Hgrp). }
  assert (Hgs : forall v, sats v (concat ses) -> sats v grp).
  { intros v Hv. unfold sats in *. rewrite Forall_forall in *. intros B HB. apply Hv. now apply (In_group Hgrp). }
  rewrite <- (front_determined b H0 (proj1 (proj2 Hf))). split.
  - intros H v Hv. apply H. apply Hgs. now apply Hs.
  - intros H v Hv.
    set (w := fun q => if mem_pos q (concat (map vars grp)) then v q else m0 q).
    assert (Ew : w p = v p) by (unfold w; now rewrite mem_true). rewrite <- Ew. apply H. apply Hs.
    assert (S0 : sats m0 (concat ses)) by (apply Hs; now apply consistent_front).
    apply in_split in Hgrp as (s1 & s2 & ->). rewrite concat_app in *. cbn [concat] in *. rewrite !map_app, !concat_app in Nd.
    assert (S1 : forall B, In B (concat s1) \/ In B (concat s2) -> sat w B).
    { intros B HB. unfold sats in S0. rewrite Forall_forall in S0. apply (@sat_ext_in m0); [|apply S0; rewrite !in_app_iff; tauto].
      intros q Hq. unfold w. rewrite mem_false; auto. intros Hq'. destruct HB as [HB|HB].
      - apply (@NoDup_app_not_in _ _ _ q Nd); [apply in_vars; eauto|]. apply in_app_iff. auto.
      - apply NoDup_app_r in Nd. apply (@NoDup_app_not_in _ _ _ q Nd Hq'). apply in_vars; eauto. }
    unfold sats. rewrite Forall_forall. intros B HB. rewrite !in_app_iff in HB. destruct HB as [HB|[HB|HB]]; auto.
    unfold sats in Hv. rewrite Forall_forall in Hv. apply (@sat_ext_in v); auto. intros q Hq. unfold w. rewrite mem_true; auto. apply in_vars; eauto.
Qed.
End L.

(** ** the answer *)
Lemma is_nil_spec {A} (l : list A) : is_nil l = true <-> l = [].
Proof. destruct l; split; intros; auto; discriminate. Qed.
Lemma not_nil_in {A} (l : list A) : is_nil l = false -> exists a, In a l.
Proof. destruct l; [discriminate|]. intros _. eexists. now left. Qed.

Section A.
Variables (row column : nat) (g : board) (xy : pos).
Hypothesis Hsat : satisfiable row column (forget g).
Hypothesis Hrect : rect row column g.
Hypothesis Hpos : forall p, inb row column p -> 0 <= cell g p.
Hypothesis Hxy : inb row column xy.
Let h := forget g.

Theorem guess_ok : exists r bd, is_guess_while_needless g xy = Ok (r, bd) /\
  (exists safe mines, marked_with row column h safe mines bd /\
     (forall p, In p safe -> determined row column h p false) /\ (forall p, In p mines -> determined row column h p true)) /\
  (cell g xy < 10 /\ r = 5 \/
   10 <= cell g xy /\
   ((front_cell row column h xy /\ verdict row column h true xy r) \/
    (~ front_cell row column h xy /\
     ((r = 2 /\ forall c, same_region row column h xy c -> ~ front_cell row column h c) \/
      exists c, same_region row column h xy c /\ front_cell row column h c /\ verdict row column h false c r)))).
Proof.
  destruct Hsat as (Hr & Hrow & m0 & H0). fold h in Hr, H0. unfold is_guess_while_needless. change (map (map (fun v : Z => if 10 <? v then 10 else v)) g) with h.
  assert (Hh : forall p, inb row column p -> cell h p = if 10 <? cell g p then 10 else cell g p) by (intros p Hp; apply (forget_cell Hrect Hp)).
  assert (Hhle : forall p, inb row column p -> cell h p <= 10) by (intros p Hp; rewrite Hh by auto; destruct (Z.ltb_spec 10 (cell g p)); lia).
  assert (Hhpos : forall p, inb row column p -> 0 <= cell h p) by (intros p Hp; rewrite Hh by auto; specialize (Hpos Hp); destruct (Z.ltb_spec 10 (cell g p)); lia).
  assert (Eg : get h (fst xy) (snd xy) = Ok (cell h xy)) by (destruct xy; apply (get_ok Hr Hxy)). rewrite Eg. cbn [bind].
  assert (M0 : exists safe mines, marked_with row column h safe mines h /\
     (forall p, In p safe -> determined row column h p false) /\ (forall p, In p mines -> determined row column h p true)).
  { exists [], []. split; [split; auto; split; [intros p []|split; [intros p []|auto]]|]. split; intros p []. }
  destruct (Z.ltb_spec (cell h xy) 10) as [L|L].
  { exists 5, h. split; auto. split; auto. left. split; auto. rewrite Hh in L by auto. destruct (Z.ltb_spec 10 (cell g xy)); lia. }
  assert (Hg10 : 10 <= cell g xy) by (rewrite Hh in L by auto; destruct (Z.ltb_spec 10 (cell g xy)); lia).
  assert (Hxy10 : cell h xy = 10) by (specialize (Hhle xy Hxy); lia).
  assert (Hop : forall q, inb row column q -> cell h q = 10 -> openp row column h q <-> front_cell row column h q).
  { intros q Hq Hq10. split.
    - intros (n & N1 & N2 & N3). split; auto. split; auto. exists n. split; auto. split; [now apply near_sym|]. split; auto.
    - intros (_ & _ & n & N1 & N2 & N3). exists n. split; auto. split; [now apply near_sym|]. apply N3. }
  assert (Hreg : forall c, same_region row column h xy c -> inb row column c /\ cell h c = 10) by (induction 1; auto).
  destruct (refresh_groups Hr Hrow Hhpos) as (ses & Es & Hpre & _ & Nd & Hfc & _ & Hlk). rewrite Es. cbn [bind].
  destruct (find_border_ok Hr Hhle Hxy Hxy10 Hrow) as (o & b & Ef & Fb & Fi). rewrite Ef. cbn [bind].
  (* the cell looked at *)
  assert (G : forall c, front_cell row column h c -> exists r bd,
    match find (fun grp => existsb (fun B => mem_pos c (vars B)) grp) ses with
        | None => Panic
        | Some bl =>
            let* (bl, n1, _, bd) := unwrap (solve_direct bl h) in
            if negb b && negb (is_nil n1) then Ok (3, bd)
            else
              let* w := get bd (fst c) (snd c) in
              if w =? 12 then Ok (1, bd)
              else if w =? 11 then Ok (4, bd)
              else
                let* (bl, n2, _, bd) := unwrap (solve_minus bl bd) in
                if negb b && negb (is_nil n2) then Ok (3, bd)
                else
                  let* w := get bd (fst c) (snd c) in
                  if w =? 12 then Ok (1, bd)
                  else if w =? 11 then Ok (4, bd)
                  else
                    let* (n3, i3) := solve_enumerate bl in
                    if negb b && negb (is_nil n3) then Ok (3, bd)
                    else if mem_pos c n3 then Ok (1, bd)
                    else if mem_pos c i3 then Ok (4, bd)
                    else if is_nil n1 && is_nil n2 && is_nil n3 then Ok (2, bd)
                    else Ok (3, bd)
        end = Ok (r, bd) /\
     (exists safe mines, marked_with row column h safe mines bd /\
     (forall p, In p safe -> determined row column h p false) /\ (forall p, In p mines -> determined row column h p true)) /\ verdict row column h b c r).
  { intros c Hfr. pose proof Hfr as (Hcin & Hc10 & _).
    destruct (find (fun grp => existsb (fun B => mem_pos c (vars B)) grp) ses) as [grp|] eqn:Efi.
    2:{ exfalso. apply Hfc in Hfr. apply in_vars in Hfr as (B & HB & HcB). apply in_concat in HB as (grp & H1 & H2).
        pose proof (find_none _ _ Efi grp H1) as H. cbn beta in H. rewrite <- not_true_iff_false in H. apply H. apply existsb_exists. exists B. split; auto. now apply mem_pos_true. }
    apply find_some in Efi as [Hgrp Hx]. apply existsb_exists in Hx as (B & HB & Hx). apply mem_pos_true in Hx.
    assert (Hcg : In c (concat (map vars grp))) by (apply in_vars; eauto).
    assert (Hdet : forall p v, In p (concat (map vars grp)) -> ((forall w, sats w grp -> w p = v) <-> determined row column h p v))
      by (intros p v Hp; apply (group_determined Hr Hrow Hhpos Es H0 v Hgrp Hp)).
    assert (Hgfc : forall p, In p (concat (map vars grp)) -> front_cell row column h p).
    { intros p Hp. apply Hfc. apply in_vars in Hp as (B' & HB' & HpB'). apply in_vars. exists B'. split; auto. now apply (In_group Hgrp). }
    assert (Hg0 : sats m0 grp).
    { destruct (refresh_groups Hr Hrow Hhpos) as (ses' & Es' & _ & _ & _ & _ & Hs & _). rewrite Es in Es'. injection Es' as <-.
      assert (S0 : sats m0 (concat ses)) by (apply Hs; now apply consistent_front). unfold sats in *. rewrite Forall_forall in *. intros B' HB'. apply S0. now apply (In_group Hgrp). }
    assert (Hpg : Forall (pre_block row column) grp) by (rewrite Forall_forall in Hpre; auto).
    destruct (engines_ok Hpg (NoDup_group Hgrp Nd) Hr Hg0) as (bl1 & n1 & i1 & bd1 & bl2 & n2 & i2 & bd2 & n3 & i3 & E1 & E2 & E3 & D1 & D2 & M1 & M2 & S3 & T3 & Hall).
    assert (P1 : forall p, In p (n1 ++ i1 ++ concat (map vars bl1)) -> In p (concat (map vars grp))) by (intros p; apply Permutation_in; symmetry; apply (dd_perm D1)).
    assert (P2 : forall p, In p (n2 ++ i2 ++ concat (map vars bl2)) -> In p (concat (map vars bl1))) by (intros p; apply Permutation_in; symmetry; apply (dd_perm D2)).
    assert (V2 : forall v, sats v grp -> sats v bl1) by (intros v Hv; apply (dd_sat D1) in Hv; apply Hv).
    assert (V3 : forall v, sats v grp -> sats v bl2) by (intros v Hv; apply V2 in Hv; apply (dd_sat D2) in Hv; apply Hv).
    assert (In1 : forall p, In p n1 -> front_cell row column h p /\ determined row column h p false).
    { intros p Hp. assert (Hpg' : In p (concat (map vars grp))) by (apply P1; rewrite !in_app_iff; auto). split; [auto|]. apply Hdet; auto. intros v Hv. apply (dd_sat D1) in Hv. now apply Hv. }
    assert (In2 : forall p, In p n2 -> front_cell row column h p /\ determined row column h p false).
    { intros p Hp. assert (Hpg' : In p (concat (map vars grp))) by (apply P1; rewrite !in_app_iff; right; right; apply P2; rewrite !in_app_iff; auto). split; [auto|]. apply Hdet; auto.
      intros v Hv. apply V2 in Hv. apply (dd_sat D2) in Hv. now apply Hv. }
    assert (In3 : forall p, In p n3 -> front_cell row column h p /\ determined row column h p false).
    { intros p Hp. destruct (S3 p Hp) as [S1 S2]. assert (Hpg' : In p (concat (map vars grp))) by (apply P1; rewrite !in_app_iff; right; right; apply P2; rewrite !in_app_iff; auto). split; [auto|]. apply Hdet; auto. }
    assert (Im1 : forall p, In p i1 -> determined row column h p true).
    { intros p Hp. apply Hdet; [apply P1; rewrite !in_app_iff; auto|]. intros v Hv. apply (dd_sat D1) in Hv. now apply Hv. }
    assert (Im2 : forall p, In p i2 -> determined row column h p true).
    { intros p Hp. apply Hdet; [apply P1; rewrite !in_app_iff; right; right; apply P2; rewrite !in_app_iff; auto|]. intros v Hv. apply V2 in Hv. apply (dd_sat D2) in Hv. now apply Hv. }
    assert (Im3 : forall p, In p i3 -> determined row column h p true).
    { intros p Hp. destruct (T3 p Hp) as [S1 S2]. apply Hdet; auto. apply P1; rewrite !in_app_iff; right; right; apply P2; rewrite !in_app_iff; auto. }
    assert (Hcomp : front_le row column h ENUM_LIMIT -> forall p, In p (concat (map vars grp)) -> determined row column h p false -> In p (n1 ++ n2 ++ n3)).
    { intros Hf p Hp Hd. apply Hall; [|split; auto; now apply Hdet]. apply Hf; [now apply (NoDup_group Hgrp)|apply Forall_forall; auto]. }
    assert (MW1 : exists safe mines, marked_with row column h safe mines bd1 /\
     (forall p, In p safe -> determined row column h p false) /\ (forall p, In p mines -> determined row column h p true)).
    { exists n1, i1. split; [now apply (marks_marked_with M1)|]. split; auto. intros p Hp. now apply In1. }
    assert (MW2 : exists safe mines, marked_with row column h safe mines bd2 /\
     (forall p, In p safe -> determined row column h p false) /\ (forall p, In p mines -> determined row column h p true)).
    { exists (n1 ++ n2), (i1 ++ i2). split; [apply (marks_marked_with (marks_trans M1 M2))|]. split; intros p Hp; apply in_app_iff in Hp as [Hp|Hp]; auto; [now apply In1|now apply In2]. }
    assert (Hcont : front_le row column h ENUM_LIMIT -> (exists q, In q (n1 ++ n2 ++ n3)) \/ (forall q, linked row column h c q -> ~ determined row column h q false)).
    { intros Hf. destruct (n1 ++ n2 ++ n3) as [|q l] eqn:El; [right|left; exists q; now left]. intros q Hq Hd. specialize (Hcomp Hf q (Hlk _ _ _ Hgrp Hcg Hq) Hd). destruct Hcomp. }
    assert (V_3 : (exists q, In q (n1 ++ n2 ++ n3)) -> (b = true -> determined row column h c false -> ~ front_le row column h ENUM_LIMIT) -> verdict row column h b c 3).
    { intros (q & Hq) Hn. split; [lia|]. split; [discriminate|]. split; [discriminate|]. split.
      - intros _. exists q. rewrite !in_app_iff in Hq. destruct Hq as [Hq|[Hq|Hq]]; auto.
      - intros Hf. split; [|discriminate]. intros Hb Hd. exfalso. now apply Hn. }
    assert (V_1 : b = true -> determined row column h c false -> verdict row column h b c 1).
    { intros Hb Hd. split; [lia|]. split; [auto|]. split; [discriminate|]. split; [discriminate|]. intros _. split; [auto|discriminate]. }
    assert (V_4 : determined row column h c true -> verdict row column h b c 4).
    { intros Hd. split; [lia|]. split; [discriminate|]. split; [auto|]. split; [discriminate|]. intros _. split; [|discriminate]. intros _ Hd'. specialize (Hd m0 H0). specialize (Hd' m0 H0). congruence. }
    assert (Eg1 : get bd1 (fst c) (snd c) = Ok (cell bd1 c)) by (destruct c; apply (get_ok (mk_rect M1) Hcin)).
    assert (Eg2 : get bd2 (fst c) (snd c) = Ok (cell bd2 c)) by (destruct c; apply (get_ok (mk_rect M2) Hcin)).
    rewrite E1. cbn [unwrap bind]. destruct (negb b && negb (is_nil n1)) eqn:Eb1.
    { exists 3, bd1. split; auto. split; auto. apply andb_true_iff in Eb1 as [B1 B2]. apply negb_true_iff in B1, B2. apply not_nil_in in B2 as (q & Hq). apply V_3; [exists q; apply in_app_iff; auto|]. intros B3. congruence. }
    assert (B1 : n1 <> [] -> b = true) by (intros Hn; destruct b; auto; cbn [negb andb] in Eb1; destruct n1; [contradiction|discriminate]).
    rewrite Eg1. cbn [bind]. pose proof (mk_cell M1 c) as C1.
    destruct (Z.eqb_spec (cell bd1 c) 12) as [Q|Q].
    { exists 1, bd1. split; auto. split; auto. rewrite C1 in Q. destruct (mem_pos c i1); [discriminate|]. destruct (mem_pos_spec c n1) as [Hm|Hm]; [|lia].
      apply V_1; [|now apply In1]. apply B1. intros ->. destruct Hm. }
    destruct (Z.eqb_spec (cell bd1 c) 11) as [Q'|Q'].
    { exists 4, bd1. split; auto. split; auto. rewrite C1 in Q'. destruct (mem_pos_spec c i1) as [Hm|Hm]; [auto|]. destruct (mem_pos c n1); [discriminate|lia]. }
    assert (Cn1 : ~ In c n1 /\ ~ In c i1).
    { rewrite C1 in Q, Q'. destruct (mem_pos_spec c i1); [lia|]. destruct (mem_pos_spec c n1); [lia|auto]. }
    rewrite E2. cbn [unwrap bind]. destruct (negb b && negb (is_nil n2)) eqn:Eb2.
    { exists 3, bd2. split; auto. split; auto. apply andb_true_iff in Eb2 as [B2 B3]. apply negb_true_iff in B2, B3. apply not_nil_in in B3 as (q & Hq). apply V_3; [exists q; rewrite !in_app_iff; auto|]. intros B4. congruence. }
    assert (B2 : n2 <> [] -> b = true) by (intros Hn; destruct b; auto; cbn [negb andb] in Eb2; destruct n2; [contradiction|discriminate]).
    rewrite Eg2. cbn [bind]. pose proof (mk_cell M2 c) as C2.
    destruct (Z.eqb_spec (cell bd2 c) 12) as [R|R].
    { exists 1, bd2. split; auto. split; auto. rewrite C2 in R. destruct (mem_pos c i2); [discriminate|]. destruct (mem_pos_spec c n2) as [Hm|Hm]; [|contradiction].
      apply V_1; [|now apply In2]. apply B2. intros ->. destruct Hm. }
    destruct (Z.eqb_spec (cell bd2 c) 11) as [R'|R'].
    { exists 4, bd2. split; auto. split; auto. rewrite C2 in R'. destruct (mem_pos_spec c i2) as [Hm|Hm]; [auto|]. destruct (mem_pos c n2); [discriminate|contradiction]. }
    assert (Cn2 : ~ In c n2) by (rewrite C2 in R, R'; destruct (mem_pos_spec c i2); [lia|]; destruct (mem_pos_spec c n2); [lia|auto]).
    rewrite E3. cbn [bind]. destruct (negb b && negb (is_nil n3)) eqn:Eb3.
    { exists 3, bd2. split; auto. split; auto. apply andb_true_iff in Eb3 as [B3 B4]. apply negb_true_iff in B3, B4. apply not_nil_in in B4 as (q & Hq). apply V_3; [exists q; rewrite !in_app_iff; auto|]. intros B5. congruence. }
    assert (B3 : n3 <> [] -> b = true) by (intros Hn; destruct b; auto; cbn [negb andb] in Eb3; destruct n3; [contradiction|discriminate]).
    destruct (mem_pos_spec c n3) as [Hm|Hm].
    { exists 1, bd2. split; auto. split; auto. apply V_1; [|now apply In3]. apply B3. intros ->. destruct Hm. }
    destruct (mem_pos_spec c i3) as [Hm'|Hm']. { exists 4, bd2. split; auto. }
    assert (Hno : determined row column h c false -> ~ front_le row column h ENUM_LIMIT).
    { intros Hd Hf. specialize (Hcomp Hf c Hcg Hd). rewrite !in_app_iff in Hcomp. destruct Cn1. tauto. }
    destruct (is_nil n1 && is_nil n2 && is_nil n3) eqn:En.
    - exists 2, bd2. split; auto. split; auto. rewrite !andb_true_iff, !is_nil_spec in En. destruct En as [[N1 N2] N3]. subst n1 n2 n3.
      split; [lia|]. split; [discriminate|]. split; [discriminate|]. split; [discriminate|]. intros Hf. split; [intros _ Hd; exfalso; now apply Hno|].
      intros _. destruct (Hcont Hf) as [(q & [])|H]. exact H.
    - exists 3, bd2. split; auto. split; auto. apply V_3; [|auto]. rewrite !andb_false_iff in En.
      destruct En as [[En|En]|En]; apply not_nil_in in En as (q & Hq); exists q; rewrite !in_app_iff; auto. }
  destruct b.
  - destruct (Fb eq_refl) as [-> Ho]. destruct (G xy) as (r & bd & E & M & V); [now apply Hop|]. exists r, bd. split; [exact E|]. split; auto. right. split; auto. left. split; auto. now apply Hop.
  - destruct (Fi eq_refl) as [Ho Hmt]. assert (Hnf : ~ front_cell row column h xy) by (intros H; apply Ho; now apply Hop).
    destruct o as [c|].
    + destruct Hmt as (C1 & C2 & C3 & C4). destruct (G c) as (r & bd & E & M & V); [now apply Hop|]. exists r, bd. split; [exact E|]. split; auto. right. split; auto. right. split; auto. right. exists c. split; auto. split; auto. now apply Hop.
    + exists 2, h. split; auto. split; auto. right. split; auto. right. split; auto. left. split; auto. intros c Hc. destruct (Hreg c Hc) as [C1 C2]. rewrite <- Hop by auto. auto.
Qed.
End A.
