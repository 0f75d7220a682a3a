(** * EvfSpec: the layout of an evf (version 0) file, as the format document describes it.
    Nothing here is code of the library: only the data types of the model are used. *)
From Verif Require Import Base Spec MineBoard Evf.
Open Scope Z_scope.

Definition byte (z : Z) : Prop := 0 <= z < 256.
Definition bytes (l : list Z) : Prop := Forall byte l.

(** Big-endian numbers. *)
Definition be16 (z : Z) : list Z := [z / 256; z mod 256].
Definition be24 (z : Z) : list Z := [z / 65536; z / 256 mod 256; z mod 256].

(** Eight bits, most significant first. *)
Definition bits8 (b0 b1 b2 b3 b4 b5 b6 b7 : bool) : Z :=
  128 * Z.b2z b0 + 64 * Z.b2z b1 + 32 * Z.b2z b2 + 16 * Z.b2z b3 +
  8 * Z.b2z b4 + 4 * Z.b2z b5 + 2 * Z.b2z b6 + Z.b2z b7.

(** A bit string packed into bytes; the last byte is filled up with zero bits. *)
Fixpoint pack (l : list bool) : list Z :=
  match l with
  | [] => []
  | b0 :: b1 :: b2 :: b3 :: b4 :: b5 :: b6 :: b7 :: rest =>
      bits8 b0 b1 b2 b3 b4 b5 b6 b7 :: pack rest
  | _ => let n i := nth i l false in
         [bits8 (n 0%nat) (n 1%nat) (n 2%nat) (n 3%nat) (n 4%nat) (n 5%nat) (n 6%nat) false]
  end.

(** The codes of the nine kinds of mouse events; 99 is written for anything else. *)
Definition kind_code (e : event) : Z :=
  match e with
  | e_mv => 1 | e_lc => 2 | e_lr => 3 | e_rc => 4 | e_rr => 5
  | e_mc => 6 | e_mr => 7 | e_pf => 8 | e_cc => 9 | _ => 99
  end.

Definition event_bytes (e : vev) : list Z :=
  kind_code (ve_mouse e) :: be24 (ve_ms e) ++ be16 (ve_x e) ++ be16 (ve_y e).

Definition evf_header (v : video) : list Z :=
  [0; bits8 (v_completed v) (v_offical v) (v_fair v) false false false false false;
   Z.of_nat (v_height v); Z.of_nat (v_width v)] ++ be16 (v_mine_num v) ++ [v_pix v] ++
  be16 (v_mode v) ++ be16 (v_bbbv v) ++ be24 (v_rtime_ms v).

Definition evf_strings (v : video) : list Z :=
  flat_map (fun s => s ++ [0])
    [v_software v; v_player v; v_race v; v_uniq v; v_start v; v_end v; v_country v; v_uuid v].

Definition evf_board (v : video) : list Z :=
  pack (map (is_mine (v_board v)) (positions (v_height v) (v_width v))).

Definition evf_body (v : video) : list Z :=
  evf_header v ++ evf_strings v ++ evf_board v ++ flat_map event_bytes (v_events v).

(** The whole file, with ([Some c]) or without ([None]) a checksum. *)
Definition evf_file (v : video) (csum : option (list Z)) : list Z :=
  evf_body v ++ match csum with Some c => 0 :: c | None => [255] end.

(** ** The videos that fit the format *)
Definition u16 (z : Z) : Prop := 0 <= z < 65536.
Definition u24 (z : Z) : Prop := 0 <= z < 16777216.

(** A metadata string: bytes, none of them NUL. *)
Definition text (s : list Z) : Prop := Forall (fun c => 0 < c < 256) s.

(** One of the nine kinds the format knows. *)
Definition nine_kinds (e : event) : Prop :=
  In e [e_mv; e_lc; e_lr; e_rc; e_rr; e_mc; e_mr; e_pf; e_cc].

Definition event_fits (e : vev) : Prop :=
  u24 (ve_ms e) /\ u16 (ve_x e) /\ u16 (ve_y e).

Definition fits (v : video) : Prop :=
  (v_height v < 256)%nat /\ (v_width v < 256)%nat /\ u16 (v_mine_num v) /\ byte (v_pix v) /\
  u16 (v_mode v) /\ u16 (v_bbbv v) /\ u24 (v_rtime_ms v) /\
  Forall text [v_software v; v_player v; v_race v; v_uniq v; v_start v; v_end v; v_country v;
               v_uuid v] /\
  Forall event_fits (v_events v) /\
  legal_board (v_height v) (v_width v) (v_board v).

(** The level a video of this size and number of mines has: 3 beginner, 4 intermediate, 5 expert,
    6 custom. *)
Definition level_spec (height width : nat) (mine_num : Z) (l : Z) : Prop :=
  (height = 8%nat /\ width = 8%nat /\ mine_num = 10 /\ l = 3) \/
  (height = 16%nat /\ width = 16%nat /\ mine_num = 40 /\ l = 4) \/
  (height = 16%nat /\ width = 30%nat /\ mine_num = 99 /\ l = 5) \/
  (~ (height = 8%nat /\ width = 8%nat /\ mine_num = 10) /\
   ~ (height = 16%nat /\ width = 16%nat /\ mine_num = 40) /\
   ~ (height = 16%nat /\ width = 30%nat /\ mine_num = 99) /\ l = 6).
