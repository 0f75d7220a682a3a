(** * PathFloat: the length of the mouse path ([get_path]) in IEEE binary64.

    BaseVideo.v keeps, for every recorded event, the list of moves whose lengths make up its [path]
    ([r_hops]); here the f64 is computed from it, addition by addition, as base_video.rs does. *)
From Coq Require Import ZArith List Lia Bool.
From Flocq Require Import IEEE754.BinarySingleNaN IEEE754.Binary IEEE754.Bits.
From Verif Require Import Base MineBoard Evf BaseVideo FloatTime.
Import ListNotations.
Open Scope Z_scope.

Section Path.
(** [f64::powf(_, 0.5)] of the platform's mathematics library; see PropsPath.v for what is assumed. *)
Variable powh : binary64 -> binary64.

(** base_video.rs 880-884, 529-534: [(dy.powf(2.0) + dx.powf(2.0)).powf(0.5) * 16.0 / pix as f64]. The
    differences are whole numbers below 2^16, so [powf(2.0)] and the sum are exact in the model. *)
Definition hop_f64 (pix : Z) (d : Z * Z) : binary64 :=
  b64_div mode_NE (b64_mult mode_NE (powh (f64_of_Z (fst d * fst d + snd d * snd d))) (f64_of_Z 16)) (f64_of_Z pix).
(** [path = p.path; path += ...]: the moves of an event are those of the event it continues from, and
    one more; the path of an event without moves is [0.0] (lines 72-95, 872, 904). *)
Definition path_f64 (pix : Z) (hops : list (Z * Z)) : binary64 :=
  fold_left (fun p d => b64_plus mode_NE p (hop_f64 pix d)) hops (f64_of_Z 0).
(** base_video.rs 1532-1541 [get_path]: indexing out of the events panics. *)
Definition get_path (v : bv) : R binary64 :=
  match rev (b_rec v) with
  | [] => Ok (f64_of_Z 0)
  | last :: _ =>
      match b_state v with
      | Display => let* r := vget (b_rec v) (b_cur v) in Ok (path_f64 (v_pix (b_meta v)) (r_hops r))
      | _ => Ok (path_f64 (v_pix (b_meta v)) (r_hops last))
      end
  end.
End Path.
