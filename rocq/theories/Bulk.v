(** Calls that do many things at once: the bulk operations of a crosscat state,
    src/crosscat/state.py:478-533, which src/crosscat/engine.py:144-150,168-174,202-210,241-252
    calls on each of its states.

    Simplifications:
    - An observation is the pair of its cells and of the clusters that it names, as in
      State.v (one dictionary in the code).
    - The queries are those of a state that is not a composite (Query.v).
    - The random choices of the calls are numbered: those of the i-th are [draws i]. *)
From Verif Require Export State Query.
Local Open Scope R_scope.

(** incorporate with its argument [inputs], state.py:262-289.  The test of [inputs] comes
    between that of the row and the others (264-267). *)
Definition incorporate_with (draws : nat -> nat -> list ext -> nat) (s : state) (rowid : Z)
  (obs : dict cell) (clus : dict Z) (inputs : dict cell) : state * res unit :=
  match n_rows s with
  | Err e => (s, Err e)
  | Ok n =>
      if negb (rowid =? n)%Z then (s, Err ValueError)                  (* 264-265 *)
      else if negb (is_nil inputs) then (s, Err ValueError)            (* 266-267 *)
      else state_incorporate draws s rowid obs clus
  end.

(** incorporate_bulk, state.py:525-528.  The loop runs over [zip(rowids, observations)],
    which ends with the shorter of the two. *)
Fixpoint incorporate_bulk (draws : nat -> nat -> nat -> list ext -> nat) (s : state)
  (rowids : list Z) (observations : list (dict cell * dict Z)) (inputs : dict cell) : state * res unit :=
  match rowids, observations with
  | r :: rowids', (obs, clus) :: observations' =>
      match incorporate_with (draws 0%nat) s r obs clus inputs with
      | (s1, Ok _) => incorporate_bulk (fun i => draws (S i)) s1 rowids' observations' inputs
      | (s1, Err e) => (s1, Err e)
      end
  | _, _ => (s, Ok tt)
  end.

(** force_cell_bulk, state.py:530-533. *)
Fixpoint force_cell_bulk (s : state) (rowids : list Z) (queries : list (dict cell)) : state * res unit :=
  match rowids, queries with
  | r :: rowids', q :: queries' =>
      match state_force_cell s r q with
      | (s1, Ok _) => force_cell_bulk s1 rowids' queries'
      | (s1, Err e) => (s1, Err e)
      end
  | _, _ => (s, Ok tt)
  end.

(** What stands for an argument that is not given, state.py:484-489,508-511. *)
Definition otherwise {A} (l : option (list A)) (x : A) (n : nat) : list A :=
  match l with Some l => l | None => repeat x n end.

(** logpdf and simulate with their argument [inputs], state.py:392-417; the state is not a
    composite, so that inputs are refused after the query has been checked. *)
Definition logpdf_with (s : state) (rowid : Z) (targets constraints inputs : dict cell) : res ext :=
  rbind (state_validate s rowid false (dkeys targets) constraints) (fun _ =>
  if is_nil inputs then state_logpdf s rowid targets constraints else Err AssertionError).
Definition simulate_with (draws : Z -> nat -> list ext -> nat) (src : Z -> Z -> Z -> nat -> res R)
  (s : state) (rowid : Z) (targets : list Z) (constraints inputs : dict cell) (N : option nat)
  : res (answer (dict R)) :=
  rbind (state_validate s rowid true targets constraints) (fun _ =>
  if is_nil inputs then state_simulate draws src s rowid targets constraints N else Err AssertionError).

(** logpdf_bulk, state.py:505-523. *)
Definition logpdf_bulk (s : state) (rowids : list Z) (targets : list (dict cell))
  (constraints inputs : option (list (dict cell))) : res (list ext) :=
  let cs := otherwise constraints [] (length rowids) in
  let ins := otherwise inputs [] (length rowids) in
  if negb (length rowids =? length targets)%nat then Err AssertionError
  else if negb (length rowids =? length cs)%nat then Err AssertionError
  else if negb (length rowids =? length ins)%nat then Err AssertionError
  else rsequence (map (fun q : Z * dict cell * dict cell * dict cell =>
         let '(r, t, c, i) := q in logpdf_with s r t c i)
       (combine (combine (combine rowids targets) cs) ins)).

(** simulate_bulk, state.py:481-503.  Without [Ns] every query asks for one sample, which
    is not the same as not saying how many (sampling.py:55,67). *)
Definition simulate_bulk (draws : nat -> Z -> nat -> list ext -> nat) (src : nat -> Z -> Z -> Z -> nat -> res R)
  (s : state) (rowids : list Z) (targets : list (list Z))
  (constraints inputs : option (list (dict cell))) (Ns : option (list (option nat)))
  : res (list (answer (dict R))) :=
  let cs := otherwise constraints [] (length rowids) in
  let ins := otherwise inputs [] (length rowids) in
  let ns := otherwise Ns (Some 1%nat) (length rowids) in
  if negb (length rowids =? length targets)%nat then Err AssertionError
  else if negb (length rowids =? length cs)%nat then Err AssertionError
  else if negb (length rowids =? length ins)%nat then Err AssertionError
  else if negb (length rowids =? length ns)%nat then Err AssertionError
  else rsequence (map (fun q : nat * (Z * list Z * dict cell * dict cell * option nat) =>
         let '(j, (r, t, c, i, n)) := q in simulate_with (draws j) (src j) s r t c i n)
       (combine (seq 0 (length rowids)) (combine (combine (combine (combine rowids targets) cs) ins) ns))).
