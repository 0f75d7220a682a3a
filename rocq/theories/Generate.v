(** * Generate: the generators of boards that can be won without guessing, [laymine_solvable] and
    [laymine_solvable_thread] (algorithms.rs 684-785). The n-th shuffle of the library's random number
    generator is [shuf n] (for thread [w], [shuf w n]); the theorems take arbitrary ones. *)
From Verif Require Import Base LayMine Solvable.
Open Scope Z_scope.

(** algorithms.rs 775-782: the loop of [laymine_solvable]; [todo] is [max_times - times], [k] is
    [times] *)
Fixpoint solvable_draws (shuf : nat -> list Z -> list Z) (row column minenum x0 y0 k todo : nat) : R (board * bool) :=
  match todo with
  | O => let* b := laymine_op (shuf k) row column minenum x0 y0 in Ok (b, false)
  | S todo =>
      let* b := laymine_op (shuf k) row column minenum x0 y0 in
      let* s := is_solvable b x0 y0 in
      if s : bool then Ok (b, true) else solvable_draws shuf row column minenum x0 y0 (S k) todo
  end.
(** algorithms.rs 766-785 [laymine_solvable] *)
Definition laymine_solvable (shuf : nat -> list Z -> list Z) (row column minenum x0 y0 max_times : nat) : R (board * bool) :=
  solvable_draws shuf row column minenum x0 y0 0 max_times.

(** ** [laymine_solvable_thread], algorithms.rs 695-755.

    Where a worker is (713-740); [k] is the number of boards it has laid so far:
    - [Check k]: at the head of the loop, 717 (the test of the counter, then the locked test of the flag);
    - [Lay k]: at 724, about to lay a board and to test it;
    - [Found b k]: at 732, about to take the lock and to set the flag (the copy 727-731 of [Board_]
      into [Board], a board of the same size, is the identity);
    - [Sending b k]: at 734, holding the lock, about to send (the guard [f] lives until the end of the
      block);
    - [Last k]: at 738, about to lay and to send the unsuccessful board;
    - [Done]; [Dead]: it has panicked. *)
Inductive phase := Check (k : nat) | Lay (k : nat) | Found (b : board) (k : nat) | Sending (b : board) (k : nat)
  | Last (k : nat) | Done | Dead.
(** The shared state: for each worker its [max_time] and its phase, the exit flag, whether the mutex is
    held, the messages in the channel in the order of sending. *)
Record pool := Pool { workers : list (nat * phase); exit_flag : bool; locked : bool; channel : list (board * bool) }.

(** algorithms.rs 709-712: [max_time] of the eight workers *)
Fixpoint budgets (ii : nat) (max_times : nat) : list nat :=
  match ii with
  | O => []
  | S i => (max_times / ii)%nat :: budgets i (max_times - max_times / ii)
  end.
Definition start_pool (max_times : nat) : pool :=
  Pool (map (fun t => (t, Check 0)) (budgets 8 max_times)) false false [].

(** One atomic step of worker [w]; [None] when it has to wait for the mutex or has ended. *)
Definition worker_step (shuf : nat -> nat -> list Z -> list Z) (row column minenum x0 y0 : nat) (w max_time : nat)
    (ph : phase) (flag lock : bool) (ch : list (board * bool)) : option (phase * bool * bool * list (board * bool)) :=
  match ph with
  | Check k =>
      if (k <? max_time)%nat then
        if lock then None else Some (if flag then Last k else Lay k, flag, lock, ch)
      else Some (Last k, flag, lock, ch)
  | Lay k =>
      Some (match laymine_op (shuf w k) row column minenum x0 y0 with
            | Ok b => match is_solvable b x0 y0 with
                      | Ok true => Found b (S k)
                      | Ok false => Check (S k)
                      | _ => Dead
                      end
            | _ => Dead
            end, flag, lock, ch)
  | Found b k => if lock then None else Some (Sending b k, true, true, ch)
  | Sending b k => Some (Last k, flag, false, ch ++ [(b, true)])
  | Last k =>
      match laymine_op (shuf w k) row column minenum x0 y0 with
      | Ok b => Some (Done, flag, lock, ch ++ [(b, false)])
      | _ => Some (Dead, flag, lock, ch)
      end
  | Done | Dead => None
  end.
(** The scheduler lets any worker that can make a step make one. *)
Inductive pool_step (shuf : nat -> nat -> list Z -> list Z) (row column minenum x0 y0 : nat) : pool -> pool -> Prop :=
| pool_step_intro w max_time ph ph' flag flag' lock lock' ws ch ch' :
    nth_error ws w = Some (max_time, ph) ->
    worker_step shuf row column minenum x0 y0 w max_time ph flag lock ch = Some (ph', flag', lock', ch') ->
    pool_step shuf row column minenum x0 y0 (Pool ws flag lock ch) (Pool (upd_nth ws w (max_time, ph')) flag' lock' ch').
(** [pool_steps n s t]: an execution of [n] steps from [s] to [t] *)
Inductive pool_steps (shuf : nat -> nat -> list Z -> list Z) (row column minenum x0 y0 : nat) : nat -> pool -> pool -> Prop :=
| pool_steps_0 s : pool_steps shuf row column minenum x0 y0 0 s s
| pool_steps_S n s t u : pool_steps shuf row column minenum x0 y0 n s t -> pool_step shuf row column minenum x0 y0 t u ->
    pool_steps shuf row column minenum x0 y0 (S n) s u.
(** algorithms.rs 743-747: the main thread waits for all workers ([join().unwrap()]) and takes the
    first message. *)
Definition ended (s : pool) : bool := forallb (fun w => match snd w with Done | Dead => true | _ => false end) (workers s).
Definition received (s : pool) : R (board * bool) :=
  if existsb (fun w => match snd w with Dead => true | _ => false end) (workers s) then Panic
  else match channel s with m :: _ => Ok m | [] => Panic end.
