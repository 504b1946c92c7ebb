(** Model of who holds which list of cells: the data of crosscat states in
    /repo/src/crosscat/state.py as objects in memory, under the calls that
    /repo/src/crosscat/engine.py makes with [map].

    State.v treats [self.X] as a value.  In the code [self.X[col]] is a list object, and
    incorporate_dim (state.py:208) keeps the very list it is given.  Here a state holds
    addresses and the memory says what list is there.

    Simplifications.
    - Only the data of a state are kept: its outputs and its [X].  What the views are told
      is the result of the call; the steps of the views themselves are in State.v, and
      take no part in what happens to the lists.
    - A new column has passed the other steps of incorporate_dim (state.py:210-237).
    - An observation has cells only, no clusters.
    - Arguments are lists, as [append] and [pop] need; an array has neither.
    - parallel_map is left out: the states that come back from it are copies (Engine.v), so
      no two of them hold the same list. *)
From Verif Require Export State.
From Coq Require Import List ZArith Arith.
Import ListNotations.

(** What is at every address. *)
Definition memory : Type := nat -> list cell.
Definition write (m : memory) (r : nat) (l : list cell) : memory :=
  fun r' => if Nat.eqb r' r then l else m r'.

(** [self.outputs] and [self.X], state.py:67-70. *)
Record holder : Type := Holder { h_outs : list Z; h_X : dict nat }.

(** n_rows, state.py:927-929. *)
Definition held_rows (m : memory) (s : holder) : res Z :=
  match h_outs s with
  | [] => Err IndexError
  | c :: _ => match dget c (h_X s) with None => Err KeyError | Some r => Ok (Z.of_nat (length (m r))) end
  end.

(** incorporate_dim, state.py:190-209, with the list at address [t]. *)
Definition hold_dim (m : memory) (s : holder) (t : nat) (col : Z) : res holder :=
  rbind (held_rows m s) (fun n =>
  if negb (Z.of_nat (length (m t)) =? n)%Z then Err ValueError
  else if zmem col (h_outs s) then Err ValueError
  else Ok (Holder (h_outs s ++ [col]) (dset col t (h_X s)))).

(** [observation.get(c, float('nan'))], state.py:277. *)
Definition cell_for (obs : dict cell) (c : Z) : cell :=
  match dget c obs with Some x => x | None => None end.

(** The loop state.py:276-277. *)
Fixpoint append_cells (X : dict nat) (obs : dict cell) (outs : list Z) (m : memory) : memory * res unit :=
  match outs with
  | [] => (m, Ok tt)
  | c :: outs' =>
      match dget c X with
      | None => (m, Err KeyError)
      | Some r => append_cells X obs outs' (write m r (m r ++ [cell_for obs c]))
      end
  end.

(** [{d: self.X[d][rowid]}] over the columns, state.py:283. *)
Definition read_row (m : memory) (s : holder) (rowid : Z) : res (dict cell) :=
  rsequence (map (fun c => match dget c (h_X s) with
                           | None => Err KeyError
                           | Some r => rbind (py_nth (m r) rowid) (fun x => Ok (c, x))
                           end) (h_outs s)).

(** incorporate, state.py:262-287: the row that the views are told. *)
Definition hold_row (s : holder) (rowid : Z) (obs : dict cell) (m : memory) : memory * res (dict cell) :=
  match held_rows m s with
  | Err e => (m, Err e)
  | Ok n =>
      if negb (rowid =? n)%Z then (m, Err ValueError)                                   (* 264-265 *)
      else if negb (forallb (fun c => zmem c (h_outs s)) (dkeys obs)) then (m, Err ValueError)
      else if existsb (fun x : cell => match x with None => true | _ => false end) (dvals obs)
      then (m, Err ValueError)                                                          (* 274-275 *)
      else
        let '(m1, r) := append_cells (h_X s) obs (h_outs s) m in
        match r, held_rows m1 s with
        | Err e, _ | _, Err e => (m1, Err e)
        | Ok _, Ok n1 => (m1, read_row m1 s (if hypothetical n1 rowid then (n1 - 1)%Z else rowid))
        end
  end.

(** The loop state.py:301-302. *)
Fixpoint pop_cells (X : dict nat) (outs : list Z) (m : memory) : memory * res unit :=
  match outs with
  | [] => (m, Ok tt)
  | c :: outs' =>
      match dget c X with
      | None => (m, Err KeyError)
      | Some r => match m r with
                  | [] => (m, Err IndexError)
                  | l => pop_cells X outs' (write m r (removelast l))
                  end
      end
  end.
(** unincorporate, state.py:291-302. *)
Definition drop_row (s : holder) (rowid : Z) (m : memory) : memory * res unit :=
  match held_rows m s with
  | Err e => (m, Err e)
  | Ok n =>
      if negb (rowid =? n - 1)%Z then (m, Err ValueError)
      else if (n =? 1)%Z then (m, Err ValueError)
      else pop_cells (h_X s) (h_outs s) m
  end.

(** [all(np.isnan(self.X[c][rowid]) for c in observation)], state.py:312. *)
Fixpoint all_empty (m : memory) (X : dict nat) (rowid : Z) (cols : list Z) : res bool :=
  match cols with
  | [] => Ok true
  | c :: cols' =>
      match dget c X with
      | None => Err KeyError
      | Some r => rbind (py_nth (m r) rowid) (fun x =>
                    match x with None => all_empty m X rowid cols' | Some _ => Ok false end)
      end
  end.
(** The loop state.py:314-315; missing columns have been rejected before. *)
Fixpoint fill_cells (X : dict nat) (rowid : Z) (obs : dict cell) (m : memory) : memory :=
  match obs with
  | [] => m
  | (c, x) :: obs' =>
      fill_cells X rowid obs' (match dget c X with Some r => write m r (py_set (m r) rowid x) | None => m end)
  end.
(** force_cell, state.py:309-315. *)
Definition fill_row (s : holder) (rowid : Z) (obs : dict cell) (m : memory) : memory * res unit :=
  match held_rows m s with
  | Err e => (m, Err e)
  | Ok n =>
      if hypothetical n rowid then (m, Err ValueError)
      else match all_empty m (h_X s) rowid (dkeys obs) with
           | Err e => (m, Err e)
           | Ok false => (m, Err ValueError)
           | Ok true => (fill_cells (h_X s) rowid obs m, Ok tt)
           end
  end.

(** [map] over the states, engine.py:40-42 and, for instance, 136-142: the calls come one
    after the other in the same memory, and the first exception ends the loop. *)
Fixpoint each {A} (op : holder -> memory -> memory * res A) (ss : list holder) (m : memory) : memory * res (list A) :=
  match ss with
  | [] => (m, Ok [])
  | s :: ss' =>
      let '(m1, r) := op s m in
      match r with
      | Err e => (m1, Err e)
      | Ok a => let '(m2, r2) := each op ss' m1 in (m2, rbind r2 (fun l => Ok (a :: l)))
      end
  end.
(** Engine.incorporate_dim with [map], engine.py:119-126: every state is given the same
    list. *)
Definition engine_dim (ss : list holder) (t : nat) (col : Z) (m : memory) : res (list holder) :=
  rsequence (map (fun s => hold_dim m s t col) ss).
(** Engine.incorporate, engine.py:136-142. *)
Definition engine_row (ss : list holder) (rowid : Z) (obs : dict cell) (m : memory) : memory * res (list (dict cell)) :=
  each (fun s => hold_row s rowid obs) ss m.
(** Engine.unincorporate, engine.py:152-158. *)
Definition engine_drop (ss : list holder) (rowid : Z) (m : memory) : memory * res (list unit) :=
  each (fun s => drop_row s rowid) ss m.
(** Engine.force_cell, engine.py:160-166. *)
Definition engine_fill (ss : list holder) (rowid : Z) (obs : dict cell) (m : memory) : memory * res (list unit) :=
  each (fun s => fill_row s rowid obs) ss m.
(** Several new rows one after the other; the rows that the views of the states were
    told. *)
Fixpoint engine_rows (ss : list holder) (rowid : Z) (obss : list (dict cell)) (m : memory)
  : memory * res (list (list (dict cell))) :=
  match obss with
  | [] => (m, Ok [])
  | obs :: obss' =>
      let '(m1, r) := engine_row ss rowid obs m in
      match r with
      | Err e => (m1, Err e)
      | Ok a => let '(m2, r2) := engine_rows ss (rowid + 1) obss' m1 in (m2, rbind r2 (fun l => Ok (a :: l)))
      end
  end.
