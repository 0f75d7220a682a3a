(** * PropsBlocks: refresh_matrixses (C30) and is_guess_while_needless (C64). *)
From Verif Require Import Base Spec BaseFacts Matrix Solve SolverSpec PosProofs PropsSolver Blocks BlocksProofs
  SolveProofs Guess GuessSpec GuessProofs.
Open Scope Z_scope.

(** ** C30: refresh_matrixses *)
(** The groups hold, taken together, exactly the unknowns of the position, none twice; a placement
    satisfies all groups iff every number next to a covered cell is right; no group is empty; cells
    that are linked by numbers are in one group. *)
Theorem C30_refresh_matrixses : forall row column g, rect row column g -> (0 < row)%nat ->
  (forall p, inb row column p -> 0 <= cell g p) ->
  exists ses, refresh_matrixses g = Ok ses /\
    Forall (fun grp => grp <> []) ses /\
    NoDup (concat (map vars (concat ses))) /\
    (forall q, In q (concat (map vars (concat ses))) <-> front_cell row column g q) /\
    (forall v, sats v (concat ses) <-> forall n, front_number row column g n -> number_ok row column g v n) /\
    (forall grp p q, In grp ses -> In p (concat (map vars grp)) -> linked row column g p q -> In q (concat (map vars grp))).
Proof.
  intros row column g Hr Hrow Hpos. destruct (refresh_groups Hr Hrow Hpos) as (ses & E & _ & H). exists ses. split; auto.
Qed.
Print Assumptions C30_refresh_matrixses.

(** A position whose covered cells form two regions: (4,0) alone and all others. *)
Definition split_pos : board :=
  [[10; 10; 10; 10; 10; 10; 1];
   [10; 3; 10; 10; 10; 10; 10];
   [10; 10; 10; 10; 10; 10; 10];
   [3; 3; 10; 10; 2; 3; 10];
   [10; 1; 10; 10; 10; 10; 10]].
Definition split_mines : list pos := [(0, 2); (1, 5); (2, 0); (2, 1); (2, 6); (4, 0); (4, 4); (4, 5)]%nat.
Lemma split_rect : rect 5 7 split_pos.
Proof. split; [reflexivity|repeat constructor]. Qed.
Lemma split_sat : satisfiable 5 7 split_pos.
Proof. eapply (satisfiable_ok (m := mines_at split_mines)); [exact split_rect|lia|vm_compute; reflexivity]. Qed.

Definition group_1 : list (list pos) :=
  [[(0, 5); (1, 5); (1, 6)]; [(2, 3); (2, 4); (2, 5); (3, 3); (4, 3); (4, 4); (4, 5); (2, 6); (3, 6); (4, 6)]]%nat.
Definition group_2 : list (list pos) :=
  [[(0, 0); (0, 1); (0, 2); (1, 0); (1, 2); (2, 0); (2, 1); (2, 2); (3, 2); (4, 0); (4, 2)]; []]%nat.
Definition split_ses : list (list block) := match refresh_matrixses split_pos with Ok ses => ses | _ => [] end.
Lemma split_eq : refresh_matrixses split_pos = Ok split_ses.
Proof. vm_compute. reflexivity. Qed.
Lemma split_result : map (map vars) split_ses = [group_1; group_2].
Proof. vm_compute. reflexivity. Qed.
Lemma split_region : same_region 5 7 split_pos (1, 5)%nat (2, 2)%nat.
Proof.
  apply (@sr_step _ _ _ _ (2, 3)%nat); [|split; cbn; lia|split; cbn; lia|reflexivity].
  apply (@sr_step _ _ _ _ (2, 4)%nat); [|split; cbn; lia|split; cbn; lia|reflexivity].
  apply (@sr_step _ _ _ _ (1, 5)%nat); [apply sr_refl|split; cbn; lia|split; cbn; lia|reflexivity].
Qed.
(** "Segments": the groups are meant to be the covered regions. They are not: two cells of one region
    can be in different groups. *)
Theorem C30_groups_are_regions_refuted :
  ~ (forall row column g ses, satisfiable row column g -> refresh_matrixses g = Ok ses ->
       forall grp p q, In grp ses -> In p (concat (map vars grp)) -> same_region row column g p q -> front_cell row column g q ->
       In q (concat (map vars grp))).
Proof.
  intros H. pose proof (H 5%nat 7%nat split_pos _ split_sat split_eq) as K. clear H.
  assert (Hg : exists a, In a split_ses /\ map vars a = group_1).
  { pose proof split_result as E. revert E. generalize split_ses. clear. intros [|a l] E; [discriminate E|]. exists a. split; [now left|]. cbn [map] in E. congruence. }
  destruct Hg as (a & Ha & Ea). specialize (K a (1, 5)%nat (2, 2)%nat Ha). rewrite Ea in K. specialize (K ltac:(cbn; tauto) split_region).
  assert (Hf : front_cell 5 7 split_pos (2, 2)%nat).
  { split; [split; cbn; lia|]. split; [reflexivity|]. exists (1, 1)%nat. split; [split; cbn; lia|]. split; [split; cbn; lia|]. split; vm_compute; congruence. }
  specialize (K Hf). clear - K. apply mem_pos_true in K. vm_compute in K. discriminate K.
Qed.
Print Assumptions C30_groups_are_regions_refuted.

(** ** C64 *)
(** [h] is the board without marks (the function first turns every mark back into a covered cell), [xy]
    the clicked cell, [r] the answer. 5: the cell is open. Otherwise, if the cell touches an open
    number, [verdict true xy r] (GuessSpec.v): 1 only if the cell is safe in every placement, 4 only if it is a
    mine in every placement, 3 only if some other cell is certainly safe, and, if no more than 55 covered
    cells touch numbers, 1 whenever the cell is certainly safe and 2 only if no cell linked to it is
    certainly safe. A cell that touches no open number is judged by a border cell [c] of its
    region: the verdict is about [c]; without such a cell the answer is 2. The caller's
    board is left with marks on cells that are certain. *)
Theorem C64_is_guess_while_needless : forall row column g xy,
  satisfiable row column (forget g) -> rect row column g -> (forall p, inb row column p -> 0 <= cell g p) -> inb row column xy ->
  let h := forget g in
  exists r bd, is_guess_while_needless g xy = Ok (r, bd) /\
    (exists safe mines, marked_with row column h safe mines bd /\
       (forall p, In p safe -> determined row column h p false) /\ (forall p, In p mines -> determined row column h p true)) /\
    (cell g xy < 10 /\ r = 5 \/
     10 <= cell g xy /\
     ((front_cell row column h xy /\ verdict row column h true xy r) \/
      (~ front_cell row column h xy /\
       ((r = 2 /\ forall c, same_region row column h xy c -> ~ front_cell row column h c) \/
        exists c, same_region row column h xy c /\ front_cell row column h c /\ verdict row column h false c r)))).
Proof. intros row column g xy H1 H2 H3 H4. exact (guess_ok H1 H2 H3 H4). Qed.
Print Assumptions C64_is_guess_while_needless.

Definition answer (g : board) (xy : pos) : Z := match is_guess_while_needless g xy with Ok (r, _) => r | _ => 0 end.
Lemma split_forget : forget split_pos = split_pos. Proof. vm_compute. reflexivity. Qed.
Example C64_case : satisfiable 5 7 (forget split_pos) /\ rect 5 7 split_pos /\
  forallb (fun p => 0 <=? cell split_pos p) (positions 5 7) = true /\
  map (answer split_pos) [(3, 2); (1, 5); (0, 0); (2, 1); (3, 0)]%nat = [1; 2; 3; 4; 5].
Proof. rewrite split_forget. split; [exact split_sat|]. split; [exact split_rect|]. split; vm_compute; reflexivity. Qed.

(** 4 ("stepped on a certain mine") for a cell that touches no number: the border cell is the certain
    mine, the clicked cell is not. *)
Definition line_pos : board := [[1; 10; 10]].
Theorem C64_certain_mine_refuted :
  ~ (forall row column g xy bd, satisfiable row column (forget g) -> rect row column g -> (forall p, inb row column p -> 0 <= cell g p) ->
       inb row column xy -> is_guess_while_needless g xy = Ok (4, bd) -> determined row column (forget g) xy true).
Proof.
  intros H. assert (Hr : rect 1 3 line_pos) by (split; [reflexivity|repeat constructor]).
  assert (Hc : consistent 1 3 (forget line_pos) (mines_at [(0, 1)%nat])) by (apply consistentb_ok; vm_compute; reflexivity).
  assert (Hs : satisfiable 1 3 (forget line_pos)) by (split; [exact Hr|split; [lia|eauto]]).
  assert (Hp : forall p, inb 1 3 p -> 0 <= cell line_pos p).
  { intros p Hp. apply in_positions in Hp. assert (E : forallb (fun p => 0 <=? cell line_pos p) (positions 1 3) = true) by reflexivity.
    rewrite forallb_forall in E. now apply Z.leb_le, E. }
  assert (Hi : inb 1 3 (0, 2)%nat) by (split; cbn; lia).
  destruct (is_guess_while_needless line_pos (0, 2)%nat) as [[r bd]| | |] eqn:E; vm_compute in E; try discriminate E. injection E as Er Eb.
  assert (E2 : is_guess_while_needless line_pos (0, 2)%nat = Ok (4, bd)) by (subst bd; vm_compute; reflexivity).
  specialize (H 1%nat 3%nat line_pos (0, 2)%nat bd Hs Hr Hp Hi E2 _ Hc). vm_compute in H. discriminate.
Qed.
Print Assumptions C64_certain_mine_refuted.

(** 2 ("a necessary guess") for a cell inside a region that has a certainly safe cell elsewhere *)
Theorem C64_necessary_guess_refuted :
  ~ (forall row column g xy bd q, satisfiable row column (forget g) -> rect row column g -> (forall p, inb row column p -> 0 <= cell g p) ->
       inb row column xy -> is_guess_while_needless g xy = Ok (2, bd) -> front_le row column (forget g) ENUM_LIMIT ->
       same_region row column (forget g) xy q -> front_cell row column (forget g) q -> ~ determined row column (forget g) q false).
Proof.
  intros H. assert (Hp : forall p, inb 5 7 p -> 0 <= cell split_pos p).
  { intros p Hp. apply in_positions in Hp. assert (E : forallb (fun p => 0 <=? cell split_pos p) (positions 5 7) = true) by reflexivity.
    rewrite forallb_forall in E. now apply Z.leb_le, E. }
  assert (Hi : inb 5 7 (0, 4)%nat) by (split; cbn; lia).
  assert (Hi2 : inb 5 7 (2, 2)%nat) by (split; cbn; lia).
  assert (E2 : is_guess_while_needless split_pos (0, 4)%nat = Ok (2, split_pos)) by (vm_compute; reflexivity).
  assert (Hf : front_le 5 7 (forget split_pos) ENUM_LIMIT).
  { intros l Nd Fl. assert (L : (length l <= length (positions 5 7))%nat); [|rewrite length_positions in L; unfold ENUM_LIMIT; lia].
    apply NoDup_incl_length; auto. intros p Hq. rewrite Forall_forall in Fl. apply in_positions. apply Fl. exact Hq. }
  assert (Hreg : same_region 5 7 (forget split_pos) (0, 4)%nat (2, 2)%nat).
  { rewrite split_forget. apply (@sr_step _ _ _ _ (1, 3)%nat); [|split; cbn; lia|split; cbn; lia|reflexivity].
    apply (@sr_step _ _ _ _ (0, 4)%nat); [apply sr_refl|split; cbn; lia|split; cbn; lia|reflexivity]. }
  assert (Hs : satisfiable 5 7 (forget split_pos)) by (rewrite split_forget; exact split_sat).
  assert (Hfc : front_cell 5 7 (forget split_pos) (2, 2)%nat).
  { rewrite split_forget. split; [exact Hi2|]. split; [reflexivity|]. exists (1, 1)%nat. split; [split; cbn; lia|]. split; [split; cbn; lia|]. split; vm_compute; congruence. }
  apply (H 5%nat 7%nat split_pos (0, 4)%nat split_pos (2, 2)%nat Hs split_rect Hp Hi E2 Hf Hreg Hfc).
  destruct (C64_is_guess_while_needless Hs split_rect Hp Hi2) as (r & bd & E & _ & [[C _]|(_ & [[_ V]|[C _]])]); [vm_compute in C; discriminate| |contradiction].
  assert (Ea : answer split_pos (2, 2)%nat = 1) by (vm_compute; reflexivity). unfold answer in Ea. rewrite E in Ea. subst r.
  destruct V as (_ & V & _). now apply V.
Qed.
Print Assumptions C64_necessary_guess_refuted.
