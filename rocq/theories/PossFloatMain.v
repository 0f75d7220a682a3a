(** * PossFloatMain: the results of [posterior_f] (lemmas for C33). *)
From Coq Require Import ZArith Reals Lia Lra Bool List.
From Flocq Require Import Core IEEE754.BinarySingleNaN IEEE754.Binary IEEE754.Bits.
From Verif Require Import Base Spec BaseFacts LayMine Matrix Solve Utils UtilsProofs SolverSpec TableProofs FloatTime FloatQuot FloatTrace BigNum FloatNear BigNumProofs BigBinom
  Possibility PossProofs PossFloat PossFloatProofs.
Import ListNotations.
Open Scope nat_scope.
Local Notation val := (B2R 53 1024).
#[local] Opaque Nat.pow.

(** the last quotient *)
Lemma div_U M u T U x : frep M (u, T) x -> (Z.of_nat M <= 2 ^ 40)%Z -> u <= 2 ^ 976 -> T <= 2 ^ 976 -> U <= 800 -> (U = 0 -> u = 0) -> frep (S M) (u, T * U) (fdiv x (f_of U)).
Proof.
  intros [H1 H2] HM Hu HT HU Hz. cbn [fst snd] in H1, H2. split; cbn [fst snd].
  - intros Hne. assert (HT0 : T <> 0) by (intros ->; apply Hne; lia). assert (HU0 : U <> 0) by (intros ->; apply Hne; lia).
    specialize (H1 HT0). destruct (@exact_near (Z.of_nat U)) as [NU VU]; [lia|]. rewrite <- INR_IZR_INZ in NU. change (f64_of_Z (Z.of_nat U)) with (f_of U) in NU.
    assert (PT : (1 <= INR T)%R) by (apply (le_INR 1); lia). assert (PU : (1 <= INR U)%R) by (apply (le_INR 1); lia).
    assert (E : (INR u / INR (T * U) = INR u / INR T / INR U)%R) by (rewrite mult_INR; field; lra). rewrite E.
    assert (Bu : (INR u <= bpow radix2 976)%R).
    { apply Rle_trans with (INR (2 ^ 976)); [now apply le_INR|]. rewrite pow_INR. replace (INR 2) with 2%R by reflexivity. rewrite bpow_2 by lia. rewrite pow_IZR. apply Rle_refl. }
    assert (BT : (INR T <= bpow radix2 976)%R).
    { apply Rle_trans with (INR (2 ^ 976)); [now apply le_INR|]. rewrite pow_INR. replace (INR 2) with 2%R by reflexivity. rewrite bpow_2 by lia. rewrite pow_IZR. apply Rle_refl. }
    assert (BU : (INR U <= bpow radix2 10)%R). { rewrite INR_IZR_INZ, bpow_2 by lia. apply IZR_le. change (2 ^ 10)%Z with 1024%Z. lia. }
    destruct (@quot_near M 0 (INR u / INR T) (INR U) x (f_of U) H1 NU) as [Q _].
    + lra.
    + assert (TU : (INR T * INR U <= bpow radix2 986)%R).
      { change 986%Z with (976 + 10)%Z. rewrite bpow_plus. apply Rmult_le_compat; lra. }
      assert (PTU : (1 <= INR T * INR U)%R) by (apply Rle_trans with (1 * 1)%R; [lra|apply Rmult_le_compat; lra]).
      replace (INR u / INR T / INR U)%R with (INR u * / (INR T * INR U))%R by (field; lra).
      split.
      * destruct u as [|u']; [left; cbn; ring|right]. set (u := S u') in *. assert (Pu : (1 <= INR u)%R) by (apply (le_INR 1); unfold u; lia).
        apply Rle_trans with (bpow radix2 (-986)); [apply bpow_le; lia|]. replace (bpow radix2 (-986)) with (/ bpow radix2 986)%R by (symmetry; exact (bpow_opp radix2 986)).
        apply Rle_trans with (1 * / (INR T * INR U))%R; [rewrite Rmult_1_l; apply Rinv_le_contravar; lra|]. apply Rmult_le_compat_r; [left; apply Rinv_0_lt_compat; lra|exact Pu].
      * apply Rle_trans with (INR u * 1)%R; [apply Rmult_le_compat_l; [apply pos_INR|]; rewrite <- Rinv_1; apply Rinv_le_contravar; lra|].
        rewrite Rmult_1_r. apply Rle_trans with (1 := Bu). apply bpow_le. lia.
    + rewrite Nat.add_0_r. destruct (@w_lin M) as [_ W]; [exact HM|lra].
    + rewrite Nat.add_0_r in Q. exact Q.
  - intros HTU Hu0. subst u. destruct (Nat.eq_dec T 0) as [->|HT0].
    + specialize (H2 eq_refl eq_refl). destruct x; try discriminate H2. reflexivity.
    + assert (U = 0) by nia. subst U. specialize (H1 HT0). replace (INR 0 / INR T)%R with 0%R in H1 by (cbn; unfold Rdiv; ring).
      rewrite (zero_is H1). reflexivity.
Qed.

(** ** the number of choices *)
Fixpoint prod (l : list nat) : nat := match l with [] => 1 | a :: l => a * prod l end.
Lemma filter_map_len {A B} (f : A -> B) p l : length (filter p (map f l)) = length (filter (fun a => p (f a)) l).
Proof. induction l as [|a l IH]; auto. cbn [map filter]. destruct (p (f a)); cbn [length]; now rewrite IH. Qed.
Lemma filter_flat_len {A B} (f : A -> list B) p l c : (forall a, length (filter p (f a)) <= c) -> length (filter p (flat_map f l)) <= length l * c.
Proof. intros H. induction l as [|a l IH]; cbn [flat_map length]; [cbn; lia|]. rewrite filter_app, app_length. specialize (H a). cbn [Nat.mul]. lia. Qed.
Lemma one_position u t m : NoDup u -> length (filter (fun a => t + nth a u 0 =? m) (indices u)) <= 1.
Proof.
  intros Nd. set (l := filter _ _). assert (Nl : NoDup l) by (apply NoDup_filter, seq_NoDup).
  assert (Eq : forall a b, In a l -> In b l -> a = b).
  { intros a b Ha Hb. apply filter_In in Ha as [Ha1 Ha2]. apply filter_In in Hb as [Hb1 Hb2]. apply Nat.eqb_eq in Ha2, Hb2. unfold indices in *. apply in_seq in Ha1, Hb1.
    apply (proj1 (NoDup_nth u 0) Nd a b); lia. }
  destruct l as [|a [|b l]]; cbn [length]; try lia. exfalso. inversion Nl as [|? ? Hn _]; subst. apply Hn. left. symmetry. apply Eq; [now left|right; now left].
Qed.
Lemma choices_few u m : NoDup u -> forall ks t, length (filter (fun s => t + tsel (ks ++ [u]) s =? m) (cart (map indices (ks ++ [u])))) <= prod (map (@length nat) ks).
Proof.
  intros Nd ks. induction ks as [|k ks IH]; intros t.
  - cbn [app map cart prod]. change (fun a => map (cons a) [[]]) with (fun a : nat => [[a]]).
    assert (E : forall l : list nat, flat_map (fun a => [[a]]) l = map (fun a => [a]) l) by (intros l; induction l as [|a l IH]; auto; cbn; now rewrite IH).
    rewrite E, filter_map_len. cbn [tsel]. rewrite (@filter_ext _ _ (fun a => t + nth a u 0 =? m)); [now apply one_position|]. intros a. now rewrite Nat.add_0_r.
  - cbn [app map cart prod]. eapply Nat.le_trans; [apply filter_flat_len with (c := prod (map (@length nat) ks))|].
    + intros a. rewrite filter_map_len. cbn [tsel]. rewrite (@filter_ext _ _ (fun s => (t + nth a k 0) + tsel (ks ++ [u]) s =? m)); [apply IH|]. intros s. now rewrite Nat.add_assoc.
    + unfold indices. rewrite seq_length. lia.
Qed.
Lemma sel_few kss u m sel : NoDup u ->
  foldM (fun acc s => let* t := choice_total (kss ++ [u]) s in Ok (if t =? m then acc ++ [s] else acc)) (cart (map (fun l => seq 0 (length l)) (kss ++ [u]))) [] = Ok sel ->
  length sel <= prod (map (@length nat) kss).
Proof.
  intros Nd. rewrite (@foldM_filter _ (choice_total (kss ++ [u])) (tsel (kss ++ [u]))).
  2:{ intros s Hs. change (map (fun l => seq 0 (length l)) (kss ++ [u])) with (map indices (kss ++ [u])) in Hs. apply in_cart in Hs as [L H]. unfold choice_total. now rewrite choice_total_ok. }
  intros E. injection E as <-. cbn [app]. apply (choices_few m Nd kss 0).
Qed.

(** ** the whole computation *)
Lemma binom_crep U k c : U <= 800 -> C_exact 1 U k = Ok c -> k <= U -> exists x, C_big 1 U k = Ok x /\ crep U c x.
Proof.
  intros HU Hc Hk. rewrite C_exact_ok in Hc by auto. injection Hc as <-.
  destruct (@C_big_ok U k DD Hk) as (y & Ey & Hs & Hv & Hx).
  - apply Z.le_trans with 800%Z; [lia|vm_compute; discriminate].
  - unfold DD. split; [lia|vm_compute; discriminate].
  - intros j _. apply pow2_DD with U; [lia|apply binom_pow2].
  - exists y. split; [exact Ey|]. split; [|split; [lra|apply binom_pow2]]. constructor; auto; [lra|unfold DD, EE in *; lia].
Qed.
Definition erel (M : nat) (a : pos * frac) (b : pos * binary64) : Prop := fst a = fst b /\ frep M (snd a) (snd b).
Lemma Forall2_concat {A B} (P : A -> B -> Prop) l l' : Forall2 (Forall2 P) l l' -> Forall2 P (concat l) (concat l').
Proof. induction 1; cbn [concat]; [constructor|]. now apply Forall2_app. Qed.

Theorem posterior_sim ps es U m mn mx :
  Forall2 tab_small (map p_table ps) es ->
  Forall (fun pc => length (p_table pc) <= 56 /\ Forall (fun r => Forall (fun c => c <= 2 ^ 55) (snd r)) (p_table pc)) ps ->
  tot es + U <= 800 -> length ps + U <= 800 -> prod (map (fun pc => length (p_table pc)) ps) <= 2 ^ 38 ->
  simR (fun a b => let M := 2 * prod (map (fun pc => length (p_table pc)) ps) + 10 * 800 in
                   Forall2 (erel M) (fst a) (fst b) /\ ((U = 0 -> fst (snd a) = 0) -> frep M (snd a) (snd b)))
    (posterior ps U m mn mx) (posterior_f ps U m mn mx).
Proof.
  intros Htab Hcell HA Hn HS. set (Sm := prod _) in *. set (n := length (map p_table ps)). assert (HnU : n + U <= 800) by (unfold n; now rewrite map_length). assert (Hn' : n <= 800) by lia.
  assert (HSZ : (Z.of_nat Sm <= 2 ^ 38)%Z) by (apply Nat2Z.inj_le in HS; rewrite Nat2Z.inj_pow in HS; exact HS).
  unfold posterior, posterior_f. apply sim_same. intros lo Hlo. apply sim_same. intros up Hup. set (unk := rng lo (Nat.min up U + 1)). fold n.
  assert (Hunk : Forall (fun k => k <= U) unk). { apply Forall_forall. intros k Hk. unfold unk, rng in Hk. apply in_seq in Hk. lia. }
  assert (Hunk8 : Forall (fun k => k <= 800) unk) by (eapply Forall_impl; [|exact Hunk]; cbn beta; lia).
  eapply sim_bind with (P := Forall2 (crep U)).
  { eapply sim_mapM; [|apply (Forall2_same Hunk)]. intros k k' [<- Hk] c Hc. exact (@binom_crep U k c ltac:(lia) Hc Hk). }
  intros unkC unkF EC HC.
  assert (Hlen : length unkC <= U + 1).
  { assert (L : forall {A B} (f : A -> R B) l r, mapM f l = Ok r -> length r = length l).
    { intros A B f l. induction l as [|a l IH]; intros r Er; cbn [mapM] in Er; [injection Er as <-; reflexivity|]. destruct (f a); cbn [bind] in Er; try discriminate Er.
      destruct (mapM f l) as [ys| | |]; cbn [bind] in Er; try discriminate Er. injection Er as <-. cbn [length]. now rewrite IH. }
    rewrite (L _ _ _ _ _ EC). unfold unk, rng. rewrite seq_length. lia. }
  apply sim_same. intros sel Hsel. set (kss := map t_mines (map p_table ps) ++ [unk]) in *.
  assert (Lsel : length sel <= Sm).
  { unfold kss in Hsel. apply sel_few in Hsel; [|apply seq_NoDup]. eapply Nat.le_trans; [exact Hsel|]. unfold Sm. rewrite !map_map. unfold t_mines.
    rewrite (@map_ext _ _ (fun x => length (map (fun r : trow => fst (fst r)) (p_table x))) (fun pc => length (p_table pc))); [lia|]. intros pc. apply map_length. }
  eapply sim_bind with (P := orel ps es U (fun _ => Sm)).
  { eapply sim_mono with (P := orel ps es U (fun _ => 0 + length sel)); [intros o x; apply (orel_mono HA Hn' HS); auto|].
    eapply (@sim_foldM _ _ _ _ (fun k => orel ps es U (fun _ => k)) (fun a b => a = b /\ True) _ _ Sm) with (k := 0).
    - intros k s s' a a' Hk HI [<- _]. exact (tally_sim Htab HA Hn' HS HC Hk HI).
    - apply Forall2_same. now apply Forall_forall.
    - cbn [Nat.add]. exact Lsel.
    - split; [now rewrite !map_length|]. intros i. destruct (Nat.lt_ge_cases i (length kss)) as [Hi|Hi].
      + rewrite (@nth_map_lt _ _ _ kss i _ []) by auto. rewrite (@nth_map_lt _ _ _ kss i _ []) by auto. rewrite !repeat_length. split; auto. intros a Ha. rewrite !nth_repeat_lt by auto.
        split; [apply zero_rep; unfold EE; lia|]. split; [intros _; left; cbn; lia|lia].
      + rewrite !nth_overflow by (rewrite map_length; auto). split; auto. intros a Ha. cbn in Ha. lia. }
  intros o x _ Ho.
  eapply sim_bind with (P := fun a b => a = nth n o [] /\ b = nth n x []).
  { destruct Ho as [L _]. intros z Ez. unfold vget in *. destruct (nth_error o n) eqn:En; [|discriminate Ez]. injection Ez as <-.
    assert (n < length o) by (apply nth_error_Some; congruence). rewrite (nth_error_nth' x []) by lia. eexists. split; [reflexivity|]. split; [symmetry; now apply nth_error_nth|reflexivity]. }
  intros on xn _ [-> ->].
  eapply sim_bind; [exact (T_sim HA Hn' HS HC Hlen Ho)|]. intros T xT _ HT. fold n in HT.
  set (kT := length (combine (nth n o []) unkC)) in *. assert (HkT : kT <= 801) by (unfold kT; rewrite combine_length; lia).
  assert (BT : T <= 2 ^ 976). { destruct HT as [_ HT]. apply Nat.le_trans with (1 := HT). apply Nat.le_trans with (2 ^ (10 + E1)); [rewrite Nat.pow_add_r; apply Nat.mul_le_mono_r, le_1024; lia|]. apply Nat.pow_le_mono_r; [lia|]. pose proof E1_eq. lia. }
  eapply sim_bind with (P := Forall2 (Forall2 (Forall2 (erel (2 * Sm + 10 * 800))))).
  { eapply sim_mapM with (Q := fun a b => a = b /\ (length (p_table (snd a)) <= 56 /\ Forall (fun r => Forall (fun c => c <= 2 ^ 55) (snd r)) (p_table (snd a)))).
    - intros [i pc] b [<- [P1 P2]]. cbn [snd] in P1, P2.
      eapply sim_bind with (P := Forall2 (ent ps es U i Sm)).
      { destruct Ho as [L Ho]. intros z Ez. unfold vget in *. destruct (nth_error o i) eqn:Ei; [|discriminate Ez]. injection Ez as <-.
        assert (i < length o) by (apply nth_error_Some; congruence). rewrite (nth_error_nth' x []) by lia. eexists. split; [reflexivity|]. destruct (Ho i) as [L' K]. rewrite (nth_error_nth _ _ [] Ei) in L', K.
        now apply Forall2_nth with (d := 0) (d' := big_zero). }
      intros oi xi _ Hoi. eapply sim_mapM with (Q := fun a b => a = b /\ True); [|apply Forall2_same; now apply Forall_forall].
      intros j b [<- _]. apply sim_same. intros grp _. eapply sim_bind.
      { apply (num_sim HA Hn' HS Hlen) with (1 := Hoi).
        - unfold t_cells. now rewrite map_length.
        - unfold t_cells. apply Forall_map. exact P2. }
      intros num xnum _ Hnum. set (kN := length (combine oi (t_cells (p_table pc)))) in *. assert (HkN : kN <= 56) by (unfold kN, t_cells; rewrite combine_length, map_length; lia).
      eapply sim_mapM with (Q := fun a b => a = b /\ True); [|apply Forall2_same; now apply Forall_forall].
      intros id b [<- _]. apply sim_same. intros q _. apply sim_ok. split; [reflexivity|]. cbn [snd].
      destruct Hnum as [N1 N2]. destruct HT as [T1 T2].
      assert (F : frep (C0 ps U + Sm + 2 + kN + (C1 ps U Sm + kT) + 900) (num, T) (div_big_num xnum xT)).
      { apply div_rep; [exact N1|exact T1| | |exact BT].
        - apply (room HA Hn' HS). unfold C1, C0. fold n. lia.
        - apply Nat.le_trans with (1 := N2). apply Nat.le_trans with (2 ^ (10 + (E1 + 55))); [rewrite (Nat.pow_add_r 2 10); apply Nat.mul_le_mono_r, le_1024; lia|]. apply Nat.pow_le_mono_r; [lia|]. pose proof E1_eq. lia. }
      destruct F as [F1 F2]. split; auto. intros Hne. eapply near_mono; [|exact (F1 Hne)]. unfold C1, C0. fold n. lia.
    - apply Forall2_same. apply Forall_forall. intros [i pc] Hin. apply in_combine_r in Hin. rewrite Forall_forall in Hcell. exact (Hcell pc Hin). }
  intros p xp _ Hp.
  eapply sim_bind; [exact (u_sim HA Hn' HS HC Hlen Hunk8 Ho)|]. intros u xu Eu Hu. fold n in Hu. apply sim_ok. cbn [fst snd]. split.
  - apply Forall2_concat. clear - Hp. induction Hp; cbn [map]; constructor; auto. now apply Forall2_concat.
  - intros Hz. set (ku := length (combine (nth n o []) (combine unkC unk))) in *. assert (Hku : ku <= 801) by (unfold ku; rewrite !combine_length; lia).
    destruct HT as [T1 T2]. destruct Hu as [U1 U2].
    assert (Bu : u <= 2 ^ 976). { apply Nat.le_trans with (1 := U2). apply Nat.le_trans with (2 ^ (10 + (E1 + 10))); [rewrite (Nat.pow_add_r 2 10); apply Nat.mul_le_mono_r, le_1024; lia|]. apply Nat.pow_le_mono_r; [lia|]. pose proof E1_eq. lia. }
    assert (F : frep (C1 ps U Sm + 2 + ku + (C1 ps U Sm + kT) + 900) (u, T) (div_big_num xu xT)).
    { apply div_rep; [exact U1|exact T1| |exact Bu|exact BT]. apply (room HA Hn' HS). unfold C1, C0. fold n. lia. }
    apply (@div_U _ _ _ U) in F; [|unfold C1, C0; fold n; assert (20000 <= 2 ^ 38)%Z by (vm_compute; discriminate); change (2 ^ 40)%Z with (4 * 2 ^ 38)%Z; lia|exact Bu|exact BT|lia|exact Hz].
    destruct F as [F1 F2]. split; auto. intros Hne. eapply near_mono; [|exact (F1 Hne)]. unfold C1, C0. fold n. lia.
Qed.
