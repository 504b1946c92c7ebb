(** Model of the mutual information of a state:
    /repo/src/crosscat/state.py:505-523, 634-722, /repo/src/network/helpers.py:44-50, 82-87.

    Simplifications: the queries of the state are arguments, simulate a finite random program
    (Prob.v); the values are of any type, the code does not look at them; the numbers of samples
    are not negative; the labels of the components are those of scipy, an argument; the walk of a
    dictionary is a list of its keys; no progress bar. *)
From Verif Require Export Prob Importance.
From Coq Require Import List ZArith Reals Bool.
Import ListNotations.
Local Open Scope Z_scope.

(** Random programs that may raise. *)
Definition rdbind {A B} (p : prog (res A)) (f : A -> prog (res B)) : prog (res B) :=
  pbind p (fun r => match r with Ok a => f a | Err e => Ret (Err e) end).
Fixpoint rdsequence {A} (l : list (prog (res A))) : prog (res (list A)) :=
  match l with
  | [] => Ret (Ok [])
  | p :: l' => rdbind p (fun a => rdbind (rdsequence l') (fun r => Ret (Ok (a :: r))))
  end.

(** The edges between components, helpers.py:44-50: [(i, j)] if [j] has an output of [i] as an
    input. *)
Definition edges (cgpms : list sig) : list (Z * Z) :=
  concat (map (fun e => map (fun i => (i, fst e)) (snd e)) (adjacency_list cgpms (variable_to_cgpm cgpms))).

Section Mi.
  Variable V : Type.
  (** State.simulate and State.logpdf; [None] is the row None. *)
  Record queries : Type := Queries {
    q_simulate : option Z -> list Z -> dict V -> nat -> prog (res (list (dict V)));
    q_logpdf : Z -> dict V -> dict V -> res ext }.
  Variable q : queries.

  (** logpdf_bulk, state.py:505-523, of rows -1 and the same constraints. *)
  Definition bulk (N : nat) (targets : list (dict V)) (constraints : dict V) : res (list ext) :=
    if negb (Nat.eqb N (length targets)) then Err AssertionError
    else rsequence (map (fun t => q_logpdf q (-1) t constraints) targets).
  (** [{c: s\[c\] for c in cols}], state.py:688, 693, 703. *)
  Definition pick (cols : list Z) (s : dict V) : res (dict V) :=
    rbind (rsequence (map (fun c => match dget c s with Some v => Ok (c, v) | None => Err KeyError end) cols)) (fun l =>
    Ok (dupdate [] l)).
  Definition picks (cols : list Z) (samples : list (dict V)) : res (list (dict V)) := rsequence (map (pick cols) samples).

  (** _compute_mi, state.py:679-696. *)
  Definition compute_mi (col0 col1 : list Z) (constraints : dict V) (N : nat) : prog (res ext) :=
    rdbind (q_simulate q None (col0 ++ col1) constraints N) (fun samples =>
    Ret (rbind (bulk N samples constraints) (fun PXY =>
         rbind (picks col0 samples) (fun X =>
         rbind (bulk N X constraints) (fun PX =>
         rbind (picks col1 samples) (fun Y =>
         rbind (bulk N Y constraints) (fun PY =>
         Ok (ediv (esub (esub (esum PXY) (esum PX)) (esum PY)) (Fin (INR N)))))))))).
  (** _compute_entropy, state.py:698-706. *)
  Definition compute_entropy (col0 col1 : list Z) (constraints : dict V) (N : nat) : prog (res ext) :=
    if negb (same_set col0 col1) then Ret (Err AssertionError)
    else rdbind (q_simulate q (Some (-1)) col0 constraints N) (fun samples =>
         Ret (rbind (picks col0 samples) (fun X =>
              rbind (bulk N X constraints) (fun PX =>
              Ok (ediv (eopp (esum PX)) (Fin (INR N))))))).

  (** [N or 100], state.py:655-656. *)
  Definition or_100 (n : option nat) : nat := match n with None | Some O => 100%nat | Some n => n end.
  (** The constraints with a value, and those without one, state.py:658-659. *)
  Definition equalities (c : dict (option V)) : dict V :=
    flat_map (fun e => match snd e with Some x => [(fst e, x)] | None => [] end) c.
  Definition margins (c : dict (option V)) : list Z :=
    flat_map (fun e => match snd e with Some _ => [] | None => [fst e] end) c.
  (** _compute_mutual_information, state.py:653-677. *)
  Definition compute_block (col0 col1 : list Z) (constraints : dict (option V)) (T N : option nat) : prog (res ext) :=
    let N := or_100 N in
    let T := or_100 T in
    let estimator := if negb (same_set col0 col1) then compute_mi else compute_entropy in
    match margins constraints with
    | [] => estimator col0 col1 (equalities constraints) N
    | m => rdbind (q_simulate q None m [] T) (fun m_samples =>
           rdbind (rdsequence (map (fun s => estimator col0 col1 (merged (equalities constraints) s) N) m_samples)) (fun mis =>
           Ret (Ok (ediv (esum mis) (Fin (INR T))))))
    end.

  (** _partition_mutual_information_query, state.py:708-722. *)
  Definition block : Type := list Z * list Z * dict (option V).
  Definition touch (k : Z) (f : block -> block) (bs : dict block) : dict block :=
    dset k (f (match dget k bs with Some b => b | None => ([], [], []) end)) bs.
  Section Partition.
    Variable component : Z -> res Z.
    Definition add0 (bs : res (dict block)) (v : Z) : res (dict block) :=
      rbind bs (fun bs => rbind (component v) (fun k => Ok (touch k (fun '(a, b, c) => (a ++ [v], b, c)) bs))).
    Definition add1 (bs : res (dict block)) (v : Z) : res (dict block) :=
      rbind bs (fun bs => rbind (component v) (fun k => Ok (touch k (fun '(a, b, c) => (a, b ++ [v], c)) bs))).
    Definition add2 (bs : res (dict block)) (e : Z * option V) : res (dict block) :=
      rbind bs (fun bs => rbind (component (fst e)) (fun k => Ok (touch k (fun '(a, b, c) => (a, b, dset (fst e) (snd e) c)) bs))).
    Definition partition_query (col0 col1 : list Z) (constraints : dict (option V)) : res (dict block) :=
      fold_left add2 constraints (fold_left add1 col1 (fold_left add0 col0 (Ok []))).
  End Partition.
  (** [connected_components\[var_to_cgpm\[variable\]\]], state.py:713, with the labels of scipy. *)
  Definition component_of (cgpms : list sig) (labels : Z -> Z) (v : Z) : res Z :=
    match dget v (variable_to_cgpm cgpms) with Some i => Ok (labels i) | None => Err KeyError end.

  (** mutual_information, state.py:634-651; [order] is the walk of the blocks. *)
  Definition is_empty {A} (l : list A) : bool := match l with [] => true | _ => false end.
  Definition mutual_information (cgpms : list sig) (labels : Z -> Z) (order : list Z -> list Z)
      (col0 col1 : list Z) (constraints : dict (option V)) (T N : option nat) : prog (res ext) :=
    if existsb (fun c => dmem c constraints) (col0 ++ col1) then Ret (Err ValueError)
    else if existsb (fun c => zmem c col1) col0 && negb (same_set col0 col1) then Ret (Err ValueError)
    else match partition_query (component_of cgpms labels) col0 col1 constraints with
         | Err e => Ret (Err e)
         | Ok bs =>
             let blocks := flat_map (fun k => match dget k bs with Some b => [b] | None => [] end) (order (dkeys bs)) in
             rdbind (rdsequence (map (fun '(c0, c1, const) => compute_block c0 c1 const T N)
                       (filter (fun '(c0, c1, const) => negb (is_empty c0) && negb (is_empty c1)) blocks))) (fun l =>
             Ret (Ok (esum l)))
         end.
End Mi.
Arguments Queries {V}. Arguments q_simulate {V}. Arguments q_logpdf {V}.
Arguments bulk {V}. Arguments pick {V}. Arguments picks {V}. Arguments compute_mi {V}. Arguments compute_entropy {V}.
Arguments equalities {V}. Arguments margins {V}. Arguments compute_block {V}. Arguments touch {V}. Arguments add0 {V}. Arguments add1 {V}. Arguments add2 {V}.
Arguments partition_query {V}. Arguments mutual_information {V}.
