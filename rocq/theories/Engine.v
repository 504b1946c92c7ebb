(** Model of /repo/src/crosscat/engine.py: an engine and the operations on its states.

    The states are objects: the engine holds a list of references [e_refs] into the
    memory [e_heap], so that a state can be changed in place and two selected states can
    be the same object.

    Simplifications.
    - A method call with its arguments is a function that returns the state after the
      call, also when it raises, and the result ([S -> S * res A]); the random generator
      of a state is part of the state.
    - parallel_map is taken from P17: its workers hold copies of all the states, each item
      goes to one worker, a worker handles its items in ascending order and goes on after
      an exception, a result is a copy of what the call returned, and any exception
      becomes a RuntimeError.  Which worker gets which item is arbitrary ([asg]).
    - Copies of states by pickling are faithful; nothing is garbage collected.
    - transition_loom is not modelled. *)
From Verif Require Export Base LogSpace ParallelMap.
From Coq Require Import List Arith ZArith.
Import ListNotations.
Local Open Scope nat_scope.

Section Engine.
  Context {S : Type}.

  Record engine : Type := Engine { e_heap : list S; e_refs : list nat }.

  (** A call of a method on the object at an address. *)
  Definition job (A : Type) : Type := (nat * (S -> S * res A))%type.

  Definition call {A} (h : list S) (j : job A) : list S * res A :=
    match nth_error h (fst j) with
    | None => (h, Err RuntimeError)                          (* a dangling reference: cannot happen *)
    | Some s => let '(s', r) := snd j s in (set_at h (fst j) s', r)
    end.

  (** [map(_modify, args)] and [map(_evaluate, args)], engine.py:40-42 and 57-58: one call
      after the other, in place, up to the first exception. *)
  Fixpoint map_jobs {A} (h : list S) (jobs : list (job A)) : list S * res (list A) :=
    match jobs with
    | [] => (h, Ok [])
    | j :: jobs' =>
        let '(h1, r) := call h j in
        match r with
        | Err e => (h1, Err e)
        | Ok a => let '(h2, rs) := map_jobs h1 jobs' in
                  (h2, rbind rs (fun l => Ok (a :: l)))
        end
    end.

  (** The copy of the memory of a worker after it has handled the items of [jobs] that were
      given to it; [i] is the number of the first one. *)
  Fixpoint worker_heap {A} (asg : nat -> nat) (w i : nat) (h : list S) (jobs : list (job A)) : list S :=
    match jobs with
    | [] => h
    | j :: jobs' => worker_heap asg w (i + 1) (if asg i =? w then fst (call h j) else h) jobs'
    end.

  (** [parallel_map(_modify, args)] and [parallel_map(_evaluate, args)]: for each item the
      object at its address after the call, and the result. *)
  Fixpoint sent {A} (asg : nat -> nat) (i : nat) (h : list S) (before jobs : list (job A)) : list (list S * res A) :=
    match jobs with
    | [] => []
    | j :: jobs' => call (worker_heap asg (asg i) 0 h before) j :: sent asg (i + 1) h (before ++ [j]) jobs'
    end.
  Definition parallel_jobs {A} (asg : nat -> nat) (h : list S) (jobs : list (job A)) : res (list (S * A)) :=
    match rsequence (map (fun js => match nth_error (fst (snd js)) (fst (fst js)), snd (snd js) with
                                    | Some s, Ok a => Ok (s, a)
                                    | _, _ => Err RuntimeError
                                    end) (combine jobs (sent asg 0 h [] jobs))) with
    | Ok l => Ok l
    | Err _ => Err RuntimeError
    end.

  (** The mapper: [map], or parallel_map with some assignment of the items. *)
  Inductive mapper : Type := Map | Parallel (asg : nat -> nat).

  (** [statenos or xrange(self.num_states())], engine.py:79 and others. *)
  Definition num_states (e : engine) : nat := length (e_refs e).                  (* 328-329 *)
  Definition selection (e : engine) (statenos : list Z) : list Z :=
    match statenos with [] => map Z.of_nat (seq 0 (num_states e)) | _ => statenos end.
  (** The position that Python's [l[s]] means. *)
  Definition position (n : nat) (s : Z) : res nat :=
    let j := if (s <? 0)%Z then (s + Z.of_nat n)%Z else s in
    if (0 <=? j)%Z && (j <? Z.of_nat n)%Z then Ok (Z.to_nat j) else Err IndexError.
  Definition positions (e : engine) (statenos : list Z) : res (list nat) :=
    rsequence (map (position (num_states e)) (selection e statenos)).
  (** The list [args]: the objects and the calls; [op p] is the call for position [p]. *)
  Definition args {A} (e : engine) (op : nat -> S -> S * res A) (ps : list nat) : list (job A) :=
    map (fun p => (nth p (e_refs e) 0, op p)) ps.

  (** [for s, state in zip(statenos, states): self.states[s] = state]. *)
  Definition assign (refs : list nat) (ps new : list nat) : list nat :=
    fold_left (fun l pr => set_at l (fst pr) (snd pr)) (combine ps new) refs.

  (** transition, transition_lovecat, transition_foreign, alter: engine.py:74-85, 87-98,
      108-117 and 313-320. *)
  Definition modify_selected {A} (m : mapper) (op : nat -> S -> S * res A) (statenos : list Z) (e : engine)
    : engine * res unit :=
    match positions e statenos with
    | Err x => (e, Err x)
    | Ok ps =>
        let jobs := args e op ps in
        match m with
        | Map =>
            let '(h, r) := map_jobs (e_heap e) jobs in
            match r with
            | Err x => (Engine h (e_refs e), Err x)
            | Ok _ => (Engine h (assign (e_refs e) ps (map fst jobs)), Ok tt)
            end
        | Parallel asg =>
            match parallel_jobs asg (e_heap e) jobs with
            | Err x => (e, Err x)
            | Ok l => (Engine (e_heap e ++ map fst l)
                         (assign (e_refs e) ps (seq (length (e_heap e)) (length l))), Ok tt)
            end
        end
    end.

  (** incorporate_dim, unincorporate_dim, incorporate, incorporate_bulk, unincorporate,
      force_cell, force_cell_bulk, update_cctype and compose_cgpm: engine.py:119-190.
      compose_cgpm reads [cgpms[s]] for each state first: [available] is their number. *)
  Definition modify_all {A} (m : mapper) (op : nat -> S -> S * res A) (available : option nat) (e : engine)
    : engine * res unit :=
    let n := num_states e in
    if match available with Some k => k <? n | None => false end then (e, Err IndexError)
    else
      let jobs := args e op (seq 0 n) in
      match m with
      | Map =>
          let '(h, r) := map_jobs (e_heap e) jobs in
          match r with
          | Err x => (Engine h (e_refs e), Err x)
          | Ok _ => (Engine h (map fst jobs), Ok tt)
          end
      | Parallel asg =>
          match parallel_jobs asg (e_heap e) jobs with
          | Err x => (e, Err x)
          | Ok l => (Engine (e_heap e ++ map fst l) (seq (length (e_heap e)) (length l)), Ok tt)
          end
      end.

  (** logpdf, logpdf_bulk, logpdf_score, logpdf_likelihood, the pairwise summaries and
      relevance_probability, engine.py:192-228, 272-281 and 291-311; with [Map] also
      dependence_probability and row_similarity, 265-270 and 283-289. *)
  Definition evaluate {A} (m : mapper) (op : S -> S * res A) (statenos : list Z) (e : engine)
    : engine * res (list A) :=
    match positions e statenos with
    | Err x => (e, Err x)
    | Ok ps =>
        let jobs := args e (fun _ => op) ps in
        match m with
        | Map => let '(h, r) := map_jobs (e_heap e) jobs in (Engine h (e_refs e), r)
        | Parallel asg => (e, rbind (parallel_jobs asg (e_heap e) jobs) (fun l => Ok (map snd l)))
        end
    end.

  (** _seed_states, engine.py:352-355. *)
  Definition seed_states (seed : S -> Z -> S) (seeds : list Z) (e : engine) : engine :=
    Engine (fold_left (fun h sr => match nth_error h (snd sr) with
                                   | Some s => set_at h (snd sr) (seed s (fst sr))
                                   | None => h
                                   end) (combine seeds (e_refs e)) (e_heap e)) (e_refs e).
  (** simulate, simulate_bulk, mutual_information, engine.py:230-263. *)
  Definition seeded_evaluate {A} (seed : S -> Z -> S) (seeds : list Z) (m : mapper) (op : S -> S * res A)
    (statenos : list Z) (e : engine) : engine * res (list A) :=
    evaluate m op statenos (seed_states seed seeds e).

  (** get_state and drop_state, engine.py:322-326. *)
  Definition get_state (e : engine) (s : Z) : res S :=
    rbind (position (num_states e) s) (fun p =>
    match nth_error (e_heap e) (nth p (e_refs e) 0) with Some x => Ok x | None => Err RuntimeError end).
  Definition drop_state (s : Z) (e : engine) : engine * res unit :=
    match position (num_states e) s with
    | Err x => (e, Err x)
    | Ok p => (Engine (e_heap e) (firstn p (e_refs e) ++ skipn (1 + p) (e_refs e)), Ok tt)
    end.

  (** The constructor, engine.py:64-69: [made] lists the outcomes of _initialize. *)
  Definition make_states (m : mapper) (made : list (res S)) : res (list S) :=
    match rsequence made with
    | Ok l => Ok l
    | Err x => Err (match m with Map => x | Parallel _ => RuntimeError end)
    end.
  Definition engine_init (m : mapper) (made : list (res S)) : res engine :=
    rbind (make_states m made) (fun l => Ok (Engine l (seq 0 (length l)))).
  (** add_state, engine.py:331-346; [forbidden] tells whether an argument that must not be
      given was given. *)
  Definition add_state (composite : S -> bool) (forbidden : bool) (m : mapper) (made : list (res S)) (e : engine)
    : engine * res unit :=
    match get_state e 0 with
    | Err x => (e, Err x)
    | Ok s =>
        if composite s then (e, Err ValueError)
        else if forbidden then (e, Err ValueError)
        else match make_states m made with
             | Err x => (e, Err x)
             | Ok l => (Engine (e_heap e ++ l) (e_refs e ++ seq (length (e_heap e)) (length l)), Ok tt)
             end
    end.
End Engine.
Arguments engine S : clear implicits.
Arguments mapper : clear implicits.
