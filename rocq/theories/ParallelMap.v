(** Model of /repo/src/utils/parallel_map.py: the parent process, the worker processes
    and the pipes between them, as a transition system whose steps may interleave in any
    order.

    Simplifications.
    - A step of a process is what it does from one blocking operation to the next.
    - Messages are delivered whole and in order; the pipe [retq] has room for the numbers
      of all workers (a worker has at most one unread number in it, C39_bounded).  A
      result may be too large for its pipe ([big]): the worker is then blocked in send
      until the parent receives.
    - The function is given by the outcome of its call on each item.
    - [ran] records which items were run; the program keeps no such list. *)
From Verif Require Export Base.
From Coq Require Import List Arith ZArith.
Import ListNotations.

(** What the call f(x) and the attempt to send its result come to, lines 49-57: a value;
    an Exception; a result whose sending raises PicklingError; a result whose sending
    raises another exception (cPickle raises TypeError for a generator), which ends the
    worker; or the end of the worker in the call itself (SystemExit). *)
Inductive outcome (B : Type) : Type :=
| Value (v : B) | Raises | PickleError | Unsendable | Dies.
Arguments Value {B}. Arguments Raises {B}. Arguments PickleError {B}.
Arguments Unsendable {B}. Arguments Dies {B}.

(** (i, ok, fx) with [None] for ok = False. *)
Definition message (B : Type) : Type := (nat * option B)%type.

(** A worker: waits for an item; runs an item; has written its number to [retq] and is
    about to send; is blocked in send; has returned; has died. *)
Inductive worker (B : Type) : Type :=
| Idle | Busy (i : nat) | Wrote (i : nat) | Sending (m : message B) | Exited | Dead.
Arguments Idle {B}. Arguments Busy {B}. Arguments Wrote {B}. Arguments Sending {B}.
Arguments Exited {B}. Arguments Dead {B}.

(** The parent: the loops of lines 89, 91 and 97 (a number [j] has been read from [retq]
    or not), the joins of line 106, the end. *)
Inductive phase : Type :=
| Initial (j : nat) | Feed (i : nat) | FeedGot (i j : nat) | Drain | DrainGot (j : nat)
| Join | Return | Raised.

Definition upd {X} (f : nat -> X) (j : nat) (x : X) : nat -> X := fun k => if (k =? j)%nat then x else f k.

Fixpoint set_at {X} (l : list X) (i : nat) (x : X) : list X :=
  match l, i with
  | [], _ => []
  | _ :: l', O => x :: l'
  | y :: l', S i' => y :: set_at l' i' x
  end.

Section Parallel.
  Context {A B : Type} (F : A -> outcome B) (l : list A) (ncpu : nat) (big : nat -> bool).

  Record config : Type := Config {
    ph : phase;
    fl : list (option B);
    ctr : Z;
    retq : list nat;
    inq : nat -> list (option nat);
    outq : nat -> list (message B);
    ws : nat -> worker B;
    ran : list nat
  }.

  (** Lines 66-88. *)
  Definition start : config :=
    Config (Initial 0) (repeat None (length l)) (Z.of_nat (length l)) [] (fun _ => []) (fun _ => []) (fun _ => Idle) [].

  (** What is sent for the item, lines 54-57. *)
  Definition reply (i : nat) : option (message B) :=
    match nth_error l i with
    | None => None
    | Some x => match F x with
                | Value v => Some (i, Some v)
                | Raises | PickleError => Some (i, None)
                | Unsendable | Dies => None
                end
    end.

  Definition set_worker (c : config) (j : nat) (w : worker B) : config :=
    Config (ph c) (fl c) (ctr c) (retq c) (inq c) (outq c) (upd (ws c) j w) (ran c).
  Definition set_phase (c : config) (p : phase) : config :=
    Config p (fl c) (ctr c) (retq c) (inq c) (outq c) (ws c) (ran c).
  Definition set_retq (c : config) (q : list nat) : config :=
    Config (ph c) (fl c) (ctr c) q (inq c) (outq c) (ws c) (ran c).
  Definition set_inq (c : config) (q : nat -> list (option nat)) : config :=
    Config (ph c) (fl c) (ctr c) (retq c) q (outq c) (ws c) (ran c).
  Definition set_outq (c : config) (q : nat -> list (message B)) : config :=
    Config (ph c) (fl c) (ctr c) (retq c) (inq c) q (ws c) (ran c).
  Definition add_ran (c : config) (i : nat) : config :=
    Config (ph c) (fl c) (ctr c) (retq c) (inq c) (outq c) (ws c) (ran c ++ [i]).
  (** process_output, lines 59-64, for a result. *)
  Definition store (c : config) (i : nat) (v : B) : config :=
    Config (ph c) (set_at (fl c) i (Some v)) (ctr c - 1) (retq c) (inq c) (outq c) (ws c) (ran c).

  Definition put (c : config) (j : nat) (o : option nat) : config :=
    set_inq c (upd (inq c) j (inq c j ++ [o])).

  (** outq[j][0].recv(): from the pipe, or from a worker that is blocked in send. *)
  Definition receive (c : config) (j : nat) : option (message B * config) :=
    match outq c j with
    | m :: q => Some (m, set_outq c (upd (outq c) j q))
    | [] => match ws c j with
            | Sending m => Some (m, set_worker c j Idle)
            | _ => None
            end
    end.

  (** The workers have not been terminated. *)
  Definition live (p : phase) : Prop := p <> Return /\ p <> Raised.

  (** process_input, lines 43-57. *)
  Inductive worker_step (c : config) (j : nat) : config -> Prop :=
  | w_take i q : ws c j = Idle -> inq c j = Some i :: q ->                                  (* 45 *)
      worker_step c j (set_worker (set_inq c (upd (inq c) j q)) j (Busy i))
  | w_stop q : ws c j = Idle -> inq c j = None :: q ->                                      (* 46-47 *)
      worker_step c j (set_worker (set_inq c (upd (inq c) j q)) j Exited)
  | w_run i x : ws c j = Busy i -> nth_error l i = Some x -> F x <> Dies ->                 (* 48-53 *)
      worker_step c j (add_ran (set_worker (set_retq c (retq c ++ [j])) j (Wrote i)) i)
  | w_die i x : ws c j = Busy i -> nth_error l i = Some x -> F x = Dies ->
      worker_step c j (add_ran (set_worker c j Dead) i)
  | w_send i m : ws c j = Wrote i -> reply i = Some m -> big i = false ->                   (* 54-57 *)
      worker_step c j (set_worker (set_outq c (upd (outq c) j (outq c j ++ [m]))) j Idle)
  | w_send_big i m : ws c j = Wrote i -> reply i = Some m -> big i = true ->
      worker_step c j (set_worker c j (Sending m))
  | w_fail i x : ws c j = Wrote i -> nth_error l i = Some x -> F x = Unsendable ->
      worker_step c j (set_worker c j Dead).

  (** The parent, lines 75-126. *)
  Inductive parent_step (c : config) : config -> Prop :=
  | p_first j : ph c = Initial j -> (j < ncpu)%nat -> (j < length l)%nat ->                 (* 89-90 *)
      parent_step c (set_phase (put c j (Some j)) (Initial (S j)))
  | p_first_end j : ph c = Initial j -> ~ ((j < ncpu)%nat /\ (j < length l)%nat) ->
      parent_step c (set_phase c (Feed j))
  | p_read i j q : ph c = Feed i -> (i < length l)%nat -> retq c = j :: q ->                (* 91-92 *)
      parent_step c (set_phase (set_retq c q) (FeedGot i j))
  | p_next i j i' v c' : ph c = FeedGot i j -> receive c j = Some ((i', Some v), c') ->     (* 93-94 *)
      parent_step c (set_phase (put (store c' i' v) j (Some i)) (Feed (S i)))
  | p_next_raise i j i' c' : ph c = FeedGot i j -> receive c j = Some ((i', None), c') ->
      parent_step c (set_phase c' Raised)
  | p_feed_end i : ph c = Feed i -> (length l <= i)%nat -> parent_step c (set_phase c Drain)
  | p_drain j q : ph c = Drain -> (0 < ctr c)%Z -> retq c = j :: q ->                       (* 97-98 *)
      parent_step c (set_phase (set_retq c q) (DrainGot j))
  | p_last j i' v c' : ph c = DrainGot j -> receive c j = Some ((i', Some v), c') ->        (* 99 *)
      parent_step c (set_phase (store c' i' v) Drain)
  | p_last_raise j i' c' : ph c = DrainGot j -> receive c j = Some ((i', None), c') ->
      parent_step c (set_phase c' Raised)
  | p_cancel : ph c = Drain -> ~ (0 < ctr c)%Z ->                                           (* 102-103 *)
      parent_step c (set_phase (set_inq c (fun j => if (j <? ncpu)%nat then inq c j ++ [None] else inq c j)) Join)
  | p_join : ph c = Join -> (forall j, (j < ncpu)%nat -> ws c j = Exited \/ ws c j = Dead) ->   (* 106-107 *)
      parent_step c (set_phase c Return).

  Inductive step (c c' : config) : Prop :=
  | s_worker j : live (ph c) -> (j < ncpu)%nat -> worker_step c j c' -> step c c'
  | s_parent : parent_step c c' -> step c c'.

  Inductive reachable : config -> Prop :=
  | r_start : reachable start
  | r_step c c' : reachable c -> step c c' -> reachable c'.
End Parallel.
