(** * LinFacts: lemmas about equations, columns and their removal. *)
From Verif Require Import Base Spec BaseFacts Matrix SolverSpec MatrixProofs.
Open Scope Z_scope.

(** ** sums *)
Fixpoint sumz {A} (f : A -> Z) (l : list A) : Z := match l with [] => 0 | x :: l => f x + sumz f l end.
Lemma sumz_app {A} (f : A -> Z) l1 l2 : sumz f (l1 ++ l2) = sumz f l1 + sumz f l2.
Proof. induction l1; cbn; lia. Qed.
Lemma sumz_ext {A} (f g : A -> Z) l : (forall x, In x l -> f x = g x) -> sumz f l = sumz g l.
Proof. induction l; cbn; intros H; auto. rewrite H, IHl; auto. Qed.
Lemma sumz_perm {A} (f : A -> Z) l l' : Permutation l l' -> sumz f l = sumz f l'.
Proof. induction 1; cbn; lia. Qed.
Lemma sumz_zero {A} (f : A -> Z) l : (forall x, In x l -> f x = 0) -> sumz f l = 0.
Proof. induction l; cbn; intros H; auto. rewrite H, IHl; auto. Qed.
Lemma sumz_nonneg {A} (f : A -> Z) l : (forall x, In x l -> 0 <= f x) -> 0 <= sumz f l.
Proof. induction l; cbn; intros H; [lia|]. pose proof (H a (or_introl eq_refl)). assert (0 <= sumz f l) by auto. lia. Qed.
Lemma sumz_le {A} (f g : A -> Z) l : (forall x, In x l -> f x <= g x) -> sumz f l <= sumz g l.
Proof. induction l; cbn; intros H; [lia|]. pose proof (H a (or_introl eq_refl)). assert (sumz f l <= sumz g l) by auto. lia. Qed.
(** equality in the bound forces equality everywhere *)
Lemma sumz_tight {A} (f g : A -> Z) l : (forall x, In x l -> f x <= g x) -> sumz f l = sumz g l -> forall x, In x l -> f x = g x.
Proof.
  induction l as [|a l IH]; cbn; intros H E x Hx; [tauto|].
  assert (sumz f l <= sumz g l) by (apply sumz_le; auto). pose proof (H a (or_introl eq_refl)).
  destruct Hx as [<-|Hx]; [lia|]. apply IH; auto. lia.
Qed.
Lemma sumz_count {A} (f : A -> bool) l : sumz (fun x => b2z (f x)) l = Z.of_nat (count f l).
Proof. induction l; cbn [sumz]; auto. rewrite count_cons, IHl. destruct (f a); cbn [b2z]; lia. Qed.
Lemma sumz_map {A B} (h : A -> B) (f : B -> Z) l : sumz f (map h l) = sumz (fun x => f (h x)) l.
Proof. induction l; cbn; congruence. Qed.
Lemma sumz_add {A} (f g : A -> Z) l : sumz (fun x => f x + g x) l = sumz f l + sumz g l.
Proof. induction l; cbn; lia. Qed.
Lemma sumz_scale {A} c (f : A -> Z) l : sumz (fun x => c * f x) l = c * sumz f l.
Proof. induction l; cbn; lia. Qed.

Lemma NoDup_app_r {A} (l1 l2 : list A) : NoDup (l1 ++ l2) -> NoDup l2.
Proof. induction l1; cbn; auto. intros H; inversion H; auto. Qed.
Lemma NoDup_app_l {A} (l1 l2 : list A) : NoDup (l1 ++ l2) -> NoDup l1.
Proof. induction l1; cbn; intros H; [constructor|]. inversion H; subst. constructor; auto. intros Hi; apply H2, in_app_iff; auto. Qed.

(** ** remove_nth *)
Lemma length_remove_nth {A} (l : list A) k : (k < length l)%nat -> length (remove_nth l k) = (length l - 1)%nat.
Proof. revert k; induction l as [|h l IH]; destruct k; cbn; intros H; try lia. rewrite IH; lia. Qed.
Lemma vremove_ok {A} (l : list A) k : (k < length l)%nat -> vremove l k = Ok (remove_nth l k).
Proof. intros H. unfold vremove. destruct (Nat.ltb_spec k (length l)); auto; lia. Qed.
Lemma remove_nth_perm {A} (d : A) l k : (k < length l)%nat -> Permutation l (nth k l d :: remove_nth l k).
Proof.
  revert k; induction l as [|h l IH]; destruct k; cbn; intros H; try lia; auto.
  rewrite perm_swap. constructor. apply IH; lia.
Qed.
Lemma nth_remove_nth {A} (d : A) l k j : (k < length l)%nat ->
  nth j (remove_nth l k) d = if (j <? k)%nat then nth j l d else nth (S j) l d.
Proof.
  revert k j; induction l as [|h l IH]; destruct k; intros j H; cbn in *; try lia.
  - destruct j; reflexivity.
  - destruct j; cbn; auto. rewrite IH by lia. destruct (Nat.ltb_spec j k), (Nat.ltb_spec (S j) (S k)); auto; lia.
Qed.
Lemma In_remove_nth {A} (d : A) l k q : (k < length l)%nat -> NoDup l -> (In q (remove_nth l k) <-> In q l /\ q <> nth k l d).
Proof.
  intros H Hnd. pose proof (remove_nth_perm d H) as P. pose proof (Permutation_NoDup P Hnd) as N. inversion N; subst.
  split.
  - intros Hi. split; [eapply Permutation_in; [symmetry; exact P|now right]|]. congruence.
  - intros [Hi Hn]. eapply Permutation_in in Hi; [|exact P]. destruct Hi; congruence.
Qed.
Lemma NoDup_remove_nth {A} (l : list A) k : NoDup l -> NoDup (remove_nth l k).
Proof.
  revert k; induction l as [|h l IH]; destruct k; cbn; intros H; auto; inversion H; subst; auto.
  constructor; auto. intros Hi. apply H2. clear -Hi. revert k Hi; induction l as [|h' l IH]; destruct k; cbn; intros Hi; auto.
  destruct Hi; eauto.
Qed.
Lemma Forall_remove_nth {A} (P : A -> Prop) l k : Forall P l -> Forall P (remove_nth l k).
Proof. revert k; induction l as [|h l IH]; destruct k; cbn; intros H; auto; inversion H; subst; auto. Qed.
Lemma In_remove_sub {A} (l : list A) k q : In q (remove_nth l k) -> In q l.
Proof. revert k; induction l as [|h l IH]; destruct k; cbn; intros H; auto. destruct H; eauto. Qed.
Lemma Forall2_remove_nth {A B} (P : A -> B -> Prop) l l' k : Forall2 P l l' -> Forall2 P (remove_nth l k) (remove_nth l' k).
Proof. intros H. revert k; induction H; destruct k; cbn; auto. Qed.
Lemma map_remove_nth {A B} (f : A -> B) l k : map f (remove_nth l k) = remove_nth (map f l) k.
Proof. revert k; induction l as [|h l IH]; destruct k; cbn; congruence. Qed.

Lemma mapM_ok {A B} (f : A -> R B) (g : A -> B) l : (forall x, In x l -> f x = Ok (g x)) -> mapM f l = Ok (map g l).
Proof. induction l as [|x l IH]; cbn; intros H; auto. rewrite H by auto. cbn. rewrite IH by auto. reflexivity. Qed.

(** ** coefficients *)
Lemma coef_out a x q : ~ In q x -> coef a x q = 0.
Proof.
  revert x; induction a as [|c a IH]; intros [|p x] H; cbn; auto.
  destruct (posb_spec p q) as [->|]; [exfalso; apply H; now left|]. apply IH. intros Hi; apply H; now right.
Qed.
Lemma coef_nth d a x k : NoDup x -> length a = length x -> (k < length x)%nat -> coef a x (nth k x d) = nth k a 0.
Proof.
  revert x k; induction a as [|c a IH]; intros [|p x] k Hnd Hl Hk; cbn in *; try lia.
  inversion Hnd; subst. destruct k; [now rewrite posb_refl|].
  destruct (posb_spec p (nth k x d)) as [->|]; [exfalso; apply H1, nth_In; lia|]. apply IH; auto; lia.
Qed.
Lemma dot_coef a x v : NoDup x -> length a = length x -> dot a x v = sumz (fun p => coef a x p * b2z (v p)) x.
Proof.
  revert x; induction a as [|c a IH]; intros [|p x] Hnd Hl; cbn in *; try lia.
  inversion Hnd; subst. rewrite posb_refl. f_equal. rewrite IH by (auto; lia). apply sumz_ext. intros q Hq.
  destruct (posb_spec p q) as [->|]; [contradiction|]. reflexivity.
Qed.
Lemma zsum_coef a x : NoDup x -> length a = length x -> sumz (fun c => c) a = sumz (coef a x) x.
Proof.
  revert x; induction a as [|c a IH]; intros [|p x] Hnd Hl; cbn in *; try lia.
  inversion Hnd; subst. rewrite posb_refl. f_equal. rewrite (IH x) by (auto; lia). apply sumz_ext. intros q Hq.
  destruct (posb_spec p q) as [->|]; [contradiction|]. reflexivity.
Qed.
Lemma coef_remove d a x k q : NoDup x -> length a = length x -> (k < length x)%nat -> q <> nth k x d ->
  coef (remove_nth a k) (remove_nth x k) q = coef a x q.
Proof.
  revert x k; induction a as [|c a IH]; intros [|p x] k Hnd Hl Hk Hq; cbn in *; try lia.
  inversion Hnd; subst. destruct k; cbn.
  - destruct (posb_spec p q) as [->|]; [exfalso; now apply Hq|reflexivity].
  - rewrite IH; auto; lia.
Qed.
Lemma coef_map f x q : In q x -> coef (map f x) x q = f q.
Proof.
  induction x as [|p x IH]; cbn; intros H; [tauto|]. destruct (posb_spec p q) as [->|]; auto. destruct H; [contradiction|auto].
Qed.

(** ** well-formedness in terms of coefficients *)
Definition bit (c : Z) : Prop := c = 0 \/ c = 1.
Definition wfe (x : list pos) (e : equation) : Prop :=
  length (fst e) = length x /\ forall q, bit (coef (fst e) x q).
Lemma wf_eq_wfe x e : NoDup x -> (wf_eq (length x) e <-> wfe x e).
Proof.
  intros Hnd. unfold wf_eq, wfe. split; intros [Hl H]; split; auto.
  - intros q. destruct (in_dec pos_eq_dec q x) as [Hi|Hi].
    + apply (In_nth x q (0, 0)%nat) in Hi as (k & Hk & <-). rewrite coef_nth by auto.
      rewrite Forall_forall in H. apply H, nth_In. lia.
    + left. now apply coef_out.
  - apply Forall_forall. intros c Hc. apply (In_nth _ _ 0) in Hc as (k & Hk & <-).
    rewrite <- (@coef_nth (0, 0)%nat (fst e) x k) by (auto; lia). apply H.
Qed.

(** ** reduction: the unknowns [found] are replaced by the constant [mine] *)
Definition red (mine : bool) (found x : list pos) (es : list equation) (x' : list pos) (es' : list equation) : Prop :=
  Permutation x (found ++ x') /\
  Forall2 (fun e e' => length (fst e') = length x' /\
             (forall q, In q x' -> coef (fst e') x' q = coef (fst e) x q) /\
             snd e' = snd e - (if mine then sumz (coef (fst e) x) found else 0)) es es'.

Lemma red_refl mine x es : Forall (wfe x) es -> red mine [] x es x es.
Proof.
  intros H. split; [reflexivity|]. induction H; constructor; auto. destruct H as [Hl Hb]. split; auto. split; auto.
  destruct mine; cbn; lia.
Qed.
Lemma red_wfe mine found x es x' es' : NoDup x -> Forall (wfe x) es -> red mine found x es x' es' ->
  NoDup x' /\ Forall (wfe x') es'.
Proof.
  intros Hnd Hw [P F]. split.
  { apply (Permutation_NoDup P) in Hnd. apply NoDup_app_r in Hnd; auto. }
  revert Hw. induction F as [|e e' es es' (Hl & Hc & Hb) F IH]; intros Hw; inversion Hw; subst; constructor; auto.
  split; auto. intros q. destruct (in_dec pos_eq_dec q x') as [Hi|Hi]; [rewrite Hc by auto; apply H1|left; now apply coef_out].
Qed.
Lemma red_trans mine f1 f2 x es x1 es1 x2 es2 : red mine f1 x es x1 es1 -> red mine f2 x1 es1 x2 es2 ->
  red mine (f1 ++ f2) x es x2 es2.
Proof.
  intros [P1 F1] [P2 F2]. split. { rewrite P1, P2. now rewrite app_assoc. }
  revert es2 F2. induction F1 as [|e e1 es es1 (A1 & A2 & A3) F1 IH]; intros es2 F2; inversion F2 as [|? e2 ? es2' (B1 & B2 & B3) F2']; subst; constructor; auto.
  assert (Hin : forall q, In q (f2 ++ x2) -> In q x1) by (intros q Hq; eapply Permutation_in; [symmetry; exact P2|auto]).
  split; auto. split.
  - intros q Hq. rewrite B2 by auto. apply A2. apply Hin, in_app_iff; auto.
  - rewrite B3, A3. destruct mine; [|lia]. rewrite sumz_app. rewrite (@sumz_ext _ (coef (fst e1) x1) (coef (fst e) x) f2); [lia|].
    intros q Hq. apply A2, Hin, in_app_iff; auto.
Qed.
(** removing one column *)
Lemma red_one mine x es k d : NoDup x -> Forall (wfe x) es -> (k < length x)%nat ->
  red mine [nth k x d] x es (remove_nth x k)
    (map (fun '(a, b) => (remove_nth a k, if mine then b - nth k a 0 else b)) es).
Proof.
  intros Hnd Hw Hk. split; [apply (remove_nth_perm d Hk)|].
  induction Hw as [|[a b] es [Hl Hb] Hw IH]; cbn [map]; constructor; auto. cbn [fst snd] in *.
  split. { rewrite !length_remove_nth; lia. } split.
  - intros q Hq. apply (@In_remove_nth _ d x k q Hk Hnd) in Hq as [Hq Hn]. apply (coef_remove Hnd Hl Hk Hn).
  - destruct mine; [|lia]. cbn [sumz]. rewrite coef_nth by auto. lia.
Qed.
(** the meaning of a reduction, row by row *)
Lemma red_sat mine found x es x' es' v : NoDup x -> Forall (wfe x) es -> red mine found x es x' es' ->
  (forall p, In p found -> v p = mine) ->
  Forall2 (fun e e' => sat_eq x v e <-> sat_eq x' v e') es es'.
Proof.
  intros Hnd Hw Hr Hv. destruct (red_wfe Hnd Hw Hr) as [Hnd' Hw']. destruct Hr as [P F].
  revert Hw Hw'. induction F as [|e e' es es' (A1 & A2 & A3) F IH]; intros Hw Hw'; inversion Hw as [|? ? Hwe Hw2]; inversion Hw' as [|? ? Hwe' Hw2']; subst; constructor; auto.
  unfold sat_eq. rewrite !dot_coef by (auto; apply Hwe || apply Hwe').
  rewrite (sumz_perm _ P), sumz_app.
  assert (E : sumz (fun p => coef (fst e) x p * b2z (v p)) x' = sumz (fun p => coef (fst e') x' p * b2z (v p)) x').
  { apply sumz_ext. intros q Hq. now rewrite A2. }
  assert (E2 : sumz (fun p => coef (fst e) x p * b2z (v p)) found = if mine then sumz (coef (fst e) x) found else 0).
  { destruct mine; [apply sumz_ext|apply sumz_zero]; intros q Hq; rewrite (Hv q Hq); cbn [b2z]; lia. }
  rewrite E, E2, A3. lia.
Qed.

(** coverage and weight *)
Definition cov (x : list pos) (es : list equation) : Prop :=
  forall q, In q x -> exists e, In e es /\ coef (fst e) x q = 1.
Definition light (x : list pos) (e : equation) : Prop := sumz (coef (fst e) x) x <= 8.
Definition nz (x : list pos) (e : equation) : Prop := exists q, In q x /\ coef (fst e) x q = 1.

Lemma Forall2_length {A B} (P : A -> B -> Prop) l l' : Forall2 P l l' -> length l = length l'.
Proof. induction 1; cbn; congruence. Qed.
Lemma Forall2_in_l {A B} (P : A -> B -> Prop) l l' a : Forall2 P l l' -> In a l -> exists b, In b l' /\ P a b.
Proof. induction 1; cbn; intros Hi; [tauto|]. destruct Hi as [<-|Hi]; eauto. destruct (IHForall2 Hi) as (b & ? & ?); eauto. Qed.
Lemma Forall2_in_r {A B} (P : A -> B -> Prop) l l' b : Forall2 P l l' -> In b l' -> exists a, In a l /\ P a b.
Proof. induction 1; cbn; intros Hi; [tauto|]. destruct Hi as [<-|Hi]; eauto. destruct (IHForall2 Hi) as (a & ? & ?); eauto. Qed.

Lemma red_cov mine found x es x' es' : red mine found x es x' es' -> cov x es -> cov x' es'.
Proof.
  intros [P F] Hc q Hq. destruct (Hc q) as (e & He & Ec). { eapply Permutation_in; [symmetry; exact P|]. apply in_app_iff; auto. }
  destruct (Forall2_in_l F He) as (e' & He' & (A1 & A2 & A3)). exists e'. split; auto. rewrite A2; auto.
Qed.
Lemma red_light mine found x es x' es' : Forall (wfe x) es -> red mine found x es x' es' -> Forall (light x) es -> Forall (light x') es'.
Proof.
  intros Hw [P F]. induction F as [|e e' es es' (A1 & A2 & A3) F IH]; intros Hl; auto; inversion Hl; inversion Hw; subst; constructor; auto.
  unfold light in *. rewrite (sumz_perm _ P), sumz_app in H1.
  rewrite (@sumz_ext _ _ (coef (fst e) x) x') by auto.
  assert (0 <= sumz (coef (fst e) x) found). { apply sumz_nonneg. intros q _. destruct H5 as [_ H5]. destruct (H5 q); lia. }
  lia.
Qed.
